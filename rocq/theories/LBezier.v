(** Lemmas on the Bezier helpers and patches over the reals. *)
From Coq Require Import ZArith List Bool Reals Lra Lia.
From Verif Require Import Base Num MGeometry MKernel MMesh MMeshRun MMeshFactory MBezier SMesh SGeom SMeasure SNurbs SBezier LBase LMeshFac4.
Import ListNotations.
Open Scope R_scope.

Lemma pt_eq (p q : pt3) : px p = px q -> py p = py q -> pz p = pz q -> p = q.
Proof. destruct p, q. cbn. intros -> -> ->. reflexivity. Qed.
Ltac pteq := apply pt_eq; cbn [px py pz add3 sub3 scal3 O3].

(** ** C66 *)
Ltac unb := cbv [map Bernstein01 Bernstein11 Bernstein02 Bernstein12 Bernstein22 Bernstein03 Bernstein13 Bernstein23 Bernstein33 square cubic
  n0 n1 n2 nofZ nadd nsub nmul RNum sumR fold_right].
Lemma family_bernstein k i b u : (1 <= k <= 3)%nat -> nth_error (family k) i = Some b -> b u = bernstein k i u.
Proof.
  intros K E. assert (k = 1 \/ k = 2 \/ k = 3)%nat as [->|[->| ->]] by lia; cbn [family] in E.
  - destruct i as [|[|[|]]]; cbn in E; try discriminate; injection E as <-; unfold bernstein, C; unb; cbn; field.
  - destruct i as [|[|[|[|]]]]; cbn in E; try discriminate; injection E as <-; unfold bernstein, C; unb; cbn; field.
  - destruct i as [|[|[|[|[|]]]]]; cbn in E; try discriminate; injection E as <-; unfold bernstein, C; unb; cbn; field.
Qed.
Lemma family_sum k u : (1 <= k <= 3)%nat -> sumR (map (fun b => b u) (family k)) = 1.
Proof. intros K. assert (k = 1 \/ k = 2 \/ k = 3)%nat as [->|[->| ->]] by lia; cbn [family]; unb; ring. Qed.
Lemma family_nonneg k u : (1 <= k <= 3)%nat -> 0 <= u <= 1 -> Forall (fun b => 0 <= b u) (family k).
Proof.
  intros K [H0 H1]. assert (0 <= 1 - u) by lra.
  assert (k = 1 \/ k = 2 \/ k = 3)%nat as [->|[->| ->]] by lia; cbn [family]; repeat apply Forall_cons; try apply Forall_nil; unb; repeat apply Rmult_le_pos; lra.
Qed.
Lemma sum_bound {A} (f : A -> R) l : Forall (fun x => 0 <= f x) l -> 0 <= sumR (map f l) /\ Forall (fun x => f x <= sumR (map f l)) l.
Proof.
  induction 1 as [|x l H F [IH0 IH]]; [split; [cbn; lra|constructor]|]. cbn [map sumR fold_right]. fold (sumR (map f l)). split; [lra|].
  constructor; [lra|]. eapply Forall_impl; [|exact IH]. cbv beta. intros y Y. lra.
Qed.
Lemma family_pos k u : (1 <= k <= 3)%nat -> 0 <= u <= 1 -> Forall (fun b => 0 <= b u <= 1) (family k).
Proof.
  intros K U. pose proof (family_nonneg k u K U) as F. destruct (sum_bound (fun b => b u) _ F) as [_ G]. rewrite family_sum in G by exact K.
  apply Forall_forall. intros b B. rewrite Forall_forall in F, G. split; [apply F|apply (G b)]; exact B.
Qed.
Lemma list2 {A} (l : list A) : length l = 2%nat -> exists a b, l = [a; b].
Proof. destruct l as [|a [|b [|]]]; cbn; try discriminate. eauto. Qed.
Lemma list3 {A} (l : list A) : length l = 3%nat -> exists a b c, l = [a; b; c].
Proof. destruct l as [|a [|b [|c [|]]]]; cbn; try discriminate. eauto. Qed.
Lemma list4 {A} (l : list A) : length l = 4%nat -> exists a b c d, l = [a; b; c; d].
Proof. destruct l as [|a [|b [|c [|d [|]]]]]; cbn; try discriminate. eauto 6. Qed.
Lemma combo_affine f cs ps : affine3 f -> length cs = length ps -> sumR cs = 1 -> f (combo cs ps) = combo cs (map f ps).
Proof.
  intros (a & b & c & d & F) L S1.
  assert (combo cs (map f ps) = add3 (add3 (scal3 (px (combo cs ps)) a) (scal3 (py (combo cs ps)) b)) (add3 (scal3 (pz (combo cs ps)) c) (scal3 (sumR cs) d))) as ->.
  { clear S1. revert ps L. induction cs as [|x cs IH]; intros [|p ps] L; cbn in L; try discriminate.
    - cbn. pteq; ring.
    - cbn [combo map]. rewrite IH by lia. rewrite F. cbn [sumR fold_right]. fold (sumR cs). pteq; ring. }
  rewrite F, S1. pteq; ring.
Qed.
Lemma family_len k : (1 <= k <= 3)%nat -> length (family k) = S k.
Proof. intros K. assert (k = 1 \/ k = 2 \/ k = 3)%nat as [->|[->| ->]] by lia; reflexivity. Qed.
Lemma family_ends k ps : (1 <= k <= 3)%nat -> length ps = S k ->
  combo (map (fun b => b 0) (family k)) ps = nth 0 ps O3 /\ combo (map (fun b => b 1) (family k)) ps = nth k ps O3.
Proof.
  intros K L. assert (k = 1 \/ k = 2 \/ k = 3)%nat as [->|[->| ->]] by lia; cbn [family].
  - destruct (list2 ps L) as (a & b & ->). unb. cbn [combo nth]. split; pteq; ring.
  - destruct (list3 ps L) as (a & b & c & ->). unb. cbn [combo nth]. split; pteq; ring.
  - destruct (list4 ps L) as (a & b & c & d & ->). unb. cbn [combo nth]. split; pteq; ring.
Qed.

(** ** C67: evaluation *)
Lemma pdiv_R (p : pt3) d : d <> 0 -> pdiv p d = Ok (scal3 (/ d) p).
Proof. intros H. unfold pdiv. rewrite !ndiv_nz by exact H. cbn [bind]. f_equal. pteq; field; exact H. Qed.
Lemma pdiv_0 (p : pt3) : pdiv p 0 = Err FDivZero.
Proof. unfold pdiv. cbn. destruct (Req_EM_T 0 0); [reflexivity|contradiction]. Qed.
Lemma eval_gen (q : QBT R) s u v v' : v' = (if Req_EM_T v (-1) then 1 - s - u else v) ->
  (mass (masses q s u v') <> 0 -> qbt_eval q s u v = Ok (mean (masses q s u v'))) /\
  (mass (masses q s u v') = 0 -> qbt_eval q s u v = Err FDivZero).
Proof.
  intros Ev. unfold qbt_eval. assert ((if (v =? - n1)%num then (n1 - s - u)%num else v) = v') as ->.
  { subst v'. cbn. unfold Reqb. destruct (Req_EM_T v (- (1))) as [E|E], (Req_EM_T v (-1)) as [E'|E']; try reflexivity; exfalso; lra. }
  clear Ev. match goal with |- context [pdiv ?p ?w] => set (P := p); set (W := w) end.
  assert (W = mass (masses q s u v')) as EW by (subst W; cbn; ring). rewrite <- EW.
  split; intros H.
  - rewrite pdiv_R by exact H. f_equal. unfold mean. rewrite <- EW. f_equal. subst P. unfold masses. cbn [bernstein_tri combine map fst snd combo].
    pteq; cbn; ring.
  - rewrite H. apply pdiv_0.
Qed.
Lemma eval_default (q : QBT R) s u : mass (masses q s u (1 - s - u)) <> 0 -> qbt_eval q s u (-1) = Ok (mean (masses q s u (1 - s - u))).
Proof. intros H. apply eval_gen; [|exact H]. destruct (Req_EM_T (-1) (-1)); [reflexivity|lra]. Qed.
Ltac unm := unfold mass, mean, masses; cbn [bernstein_tri combine map fst snd combo sumR fold_right].

Lemma eval_ends (q : QBT R) :
  (qw1 q <> 0 -> qbt_eval q 1 0 (-1) = Ok (qP1 q) /\ qbt_eval q 1 0 0 = Ok (qP1 q)) /\
  (qw2 q <> 0 -> qbt_eval q 0 1 (-1) = Ok (qP2 q) /\ qbt_eval q 0 1 0 = Ok (qP2 q)) /\
  (qw3 q <> 0 -> qbt_eval q 0 0 (-1) = Ok (qP3 q) /\ qbt_eval q 0 0 1 = Ok (qP3 q)).
Proof.
  assert (forall s u v v' p w, v' = (if Req_EM_T v (-1) then 1 - s - u else v) -> w <> 0 -> mass (masses q s u v') = w ->
    combo (map fst (masses q s u v')) (map snd (masses q s u v')) = scal3 w p -> qbt_eval q s u v = Ok p) as K.
  { intros s u v v' p w Ev W Em Ec. destruct (eval_gen q s u v v' Ev) as [H _]. rewrite H by (rewrite Em; exact W). f_equal. unfold mean. rewrite Em, Ec. pteq; field; exact W. }
  repeat split.
  - apply (K 1 0 (-1) 0 _ (qw1 q)); [destruct (Req_EM_T (-1) (-1)); lra|assumption|unm; ring|unm; pteq; ring].
  - apply (K 1 0 0 0 _ (qw1 q)); [destruct (Req_EM_T 0 (-1)); lra|assumption|unm; ring|unm; pteq; ring].
  - apply (K 0 1 (-1) 0 _ (qw2 q)); [destruct (Req_EM_T (-1) (-1)); lra|assumption|unm; ring|unm; pteq; ring].
  - apply (K 0 1 0 0 _ (qw2 q)); [destruct (Req_EM_T 0 (-1)); lra|assumption|unm; ring|unm; pteq; ring].
  - apply (K 0 0 (-1) 1 _ (qw3 q)); [destruct (Req_EM_T (-1) (-1)); lra|assumption|unm; ring|unm; pteq; ring].
  - apply (K 0 0 1 1 _ (qw3 q)); [destruct (Req_EM_T 1 (-1)); lra|assumption|unm; ring|unm; pteq; ring].
Qed.

Lemma eval_edges (q : QBT R) t :
  (mass (conic (qw1 q) (qw12 q) (qw2 q) (qP1 q) (qC12 q) (qP2 q) t) <> 0 ->
     qbt_eval q (1 - t) t (-1) = Ok (mean (conic (qw1 q) (qw12 q) (qw2 q) (qP1 q) (qC12 q) (qP2 q) t))) /\
  (mass (conic (qw1 q) (qw13 q) (qw3 q) (qP1 q) (qC13 q) (qP3 q) t) <> 0 ->
     qbt_eval q (1 - t) 0 (-1) = Ok (mean (conic (qw1 q) (qw13 q) (qw3 q) (qP1 q) (qC13 q) (qP3 q) t))) /\
  (mass (conic (qw2 q) (qw23 q) (qw3 q) (qP2 q) (qC23 q) (qP3 q) t) <> 0 ->
     qbt_eval q 0 (1 - t) (-1) = Ok (mean (conic (qw2 q) (qw23 q) (qw3 q) (qP2 q) (qC23 q) (qP3 q) t))).
Proof.
  assert (forall s u l, mass (masses q s u (1 - s - u)) = mass l -> combo (map fst (masses q s u (1 - s - u))) (map snd (masses q s u (1 - s - u))) = combo (map fst l) (map snd l) ->
    mass l <> 0 -> qbt_eval q s u (-1) = Ok (mean l)) as K.
  { intros s u l E1 E2 H. rewrite eval_default by (rewrite E1; exact H). unfold mean. rewrite E1, E2. reflexivity. }
  assert (C 2 0 = 1) as C0 by (unfold C; cbn; field). assert (C 2 1 = 2) as C1 by (unfold C; cbn; field). assert (C 2 2 = 1) as C2 by (unfold C; cbn; field).
  repeat split; apply K; unfold conic, bernstein; rewrite C0, C1, C2; unm; cbn [pow Nat.sub]; first [ring|pteq; ring].
Qed.

(** Equal weights and control points in the middle of the edges: the barycentric map. *)
Lemma eval_flat (q0 : QBT R) P1 P2 P3 w s u v : w <> 0 -> s + u + v = 1 ->
  let q := qbt_set_weights (qbt_set_points q0 P1 P2 P3) w w w w w w in
  qbt_eval q s u v = Ok (bary_map P1 P2 P3 s u v) /\ qbt_eval q s u (-1) = Ok (bary_map P1 P2 P3 s u v).
Proof.
  intros W H q. assert (v = 1 - s - u) as -> by lra.
  assert (mass (masses q s u (1 - s - u)) = w) as M by (unm; cbn; ring).
  assert (mean (masses q s u (1 - s - u)) = bary_map P1 P2 P3 s u (1 - s - u)) as E.
  { unfold mean. rewrite M. unfold bary_map. unm. subst q. cbn. pteq; cbn; field; exact W. }
  split; [|rewrite eval_default by (rewrite M; exact W); rewrite E; reflexivity].
  destruct (eval_gen q s u (1 - s - u) (1 - s - u)) as [K _]; [destruct (Req_EM_T (1 - s - u) (-1)); reflexivity|].
  rewrite K by (rewrite M; exact W). rewrite E. reflexivity.
Qed.
Lemma set_weights_id (q : QBT R) w : qw1 q = w -> qw2 q = w -> qw3 q = w -> qw12 q = w -> qw13 q = w -> qw23 q = w -> qbt_set_weights q w w w w w w = q.
Proof. destruct q. cbn. intros -> -> -> -> -> ->. reflexivity. Qed.
Lemma eval_flat_new P1 P2 P3 s u v : s + u + v = 1 ->
  qbt_eval (qbt_set_points qbt_new P1 P2 P3) s u v = Ok (bary_map P1 P2 P3 s u v) /\ qbt_eval (qbt_set_points qbt_new P1 P2 P3) s u (-1) = Ok (bary_map P1 P2 P3 s u v).
Proof.
  intros H. pose proof (eval_flat qbt_new P1 P2 P3 1 s u v ltac:(lra) H) as K. cbv zeta in K. rewrite set_weights_id in K by reflexivity. exact K.
Qed.

Lemma mass_pos (q : QBT R) s u v : positive_weights q -> 0 <= s -> 0 <= u -> 0 <= v -> s + u + v = 1 -> 0 < mass (masses q s u v).
Proof.
  intros P Hs Hu Hv H. unfold positive_weights in P. repeat match goal with P : Forall _ (_ :: _) |- _ => inversion P; subst; clear P end. unm.
  assert (0 <= qw12 q * (2 * s * u)) by (repeat apply Rmult_le_pos; lra). assert (0 <= qw13 q * (2 * s * v)) by (repeat apply Rmult_le_pos; lra). assert (0 <= qw23 q * (2 * u * v)) by (repeat apply Rmult_le_pos; lra).
  assert (0 <= qw1 q * s ^ 2) by nra. assert (0 <= qw2 q * u ^ 2) by nra. assert (0 <= qw3 q * v ^ 2) by nra.
  assert (0 < s \/ 0 < u \/ 0 < v) as [?|[?|?]] by lra.
  - assert (0 < qw1 q * s ^ 2) by (apply Rmult_lt_0_compat; [lra|nra]). lra.
  - assert (0 < qw2 q * u ^ 2) by (apply Rmult_lt_0_compat; [lra|nra]). lra.
  - assert (0 < qw3 q * v ^ 2) by (apply Rmult_lt_0_compat; [lra|nra]). lra.
Qed.
Lemma combo_scal k cs ps : combo (map (fun c => k * c) cs) ps = scal3 k (combo cs ps).
Proof. revert ps. induction cs as [|c cs IH]; intros [|p ps]; cbn [combo map]; try (pteq; ring). rewrite IH. pteq; ring. Qed.
Lemma sumR_scal k cs : sumR (map (fun c => k * c) cs) = k * sumR cs.
Proof. induction cs as [|c cs IH]; cbn; [ring|]. change (k * c + sumR (map (fun c => k * c) cs) = k * (c + sumR cs)). rewrite IH. ring. Qed.
Lemma eval_hull (q : QBT R) s u : positive_weights q -> 0 <= s -> 0 <= u -> s + u <= 1 ->
  exists p, qbt_eval q s u (-1) = Ok p /\ in_hull [qP1 q; qP2 q; qP3 q; qC12 q; qC13 q; qC23 q] p.
Proof.
  intros P Hs Hu H. pose proof (mass_pos q s u (1 - s - u) P Hs Hu ltac:(lra) ltac:(ring)) as M. exists (mean (masses q s u (1 - s - u))).
  split; [apply eval_default; lra|]. exists (map (fun c => / mass (masses q s u (1 - s - u)) * c) (map fst (masses q s u (1 - s - u)))).
  split; [reflexivity|]. pose proof (Rinv_0_lt_compat _ M) as I. repeat split.
  - apply Forall_map. apply Forall_map. unfold positive_weights in P. repeat match goal with P : Forall _ (_ :: _) |- _ => inversion P; subst; clear P end.
    apply Forall_forall. intros [c p] HI. cbn [fst]. apply Rmult_le_pos; [lra|]. assert (0 <= 1 - s - u) by lra.
    unfold masses in HI. cbn in HI. destruct HI as [E|[E|[E|[E|[E|[E|[]]]]]]]; injection E as <- <-; apply Rmult_le_pos; try lra; try nra.
  - rewrite sumR_scal. unfold mass. apply Rinv_l. unfold mass in M. lra.
  - rewrite combo_scal. reflexivity.
Qed.
(** Affine maps of the control points move the patch. *)
Lemma eval_affine (q : QBT R) f s u v p : affine3 f -> qbt_eval q s u v = Ok p -> qbt_eval (qbt_apply_transform q f) s u v = Ok (f p).
Proof.
  intros A E. set (v' := if Req_EM_T v (-1) then 1 - s - u else v).
  destruct (eval_gen q s u v v' eq_refl) as [H1 H0]. destruct (Req_EM_T (mass (masses q s u v')) 0) as [Z|NZ]; [rewrite (H0 Z) in E; discriminate|].
  rewrite (H1 NZ) in E. injection E as <-. destruct (eval_gen (qbt_apply_transform q f) s u v v' eq_refl) as [K1 _].
  assert (mass (masses (qbt_apply_transform q f) s u v') = mass (masses q s u v')) as EM by reflexivity. rewrite K1 by (rewrite EM; exact NZ). f_equal.
  unfold mean at 2. set (M := mass (masses q s u v')) in *. rewrite <- combo_scal. rewrite (combo_affine f); [|exact A|reflexivity|rewrite sumR_scal; apply Rinv_l; exact NZ].
  unfold mean. rewrite EM. fold M. rewrite combo_scal. reflexivity.
Qed.

(** ** C68 *)
Lemma pn_edge_R (P Q n : pt3) : pn_edge P Q n = Ok (sub3 (third P Q) (scal3 (dot3 (sub3 Q P) n / 3) n)).
Proof. unfold pn_edge. rewrite pdiv_R by (cbn; lra). f_equal. unfold third, dot3. pteq; cbn; field. Qed.
Lemma pn_tangent (P Q n : pt3) : let c := sub3 (third P Q) (scal3 (dot3 (sub3 Q P) n / 3) n) in
  dot3 (sub3 c P) n = dot3 (sub3 Q P) n * (1 - dot3 n n) / 3.
Proof. intros c. subst c. unfold dot3, third. cbn. field. Qed.
