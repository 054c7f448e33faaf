(** The grid points of the icosahedron's faces, listed once each. *)
From Coq Require Import ZArith List Bool Lia Reals Lra Psatz Permutation.
From Verif Require Import Base Num MGeometry MKernel MMesh MMeshRun MMeasure MUtil MMeshFactory SMesh SReach SGeom SMeasure SUtil SMeshFac LBase LMesh LReach LGeom LMeasure LMeasure2 LMerge LTess LMeshFac LMeshFac2 LMeshFac3 LMeshFac4 LMeshFac5 LGeo3.
Import ListNotations.
Open Scope Z_scope.

Definition key := list (Z * Z).
Definition wt (l : key) (v : Z) : Z := fold_right (fun e s => (if fst e =? v then snd e else 0) + s) 0 l.
Definition sumZ (l : list Z) : Z := fold_right Z.add 0 l.
Definition memz (v : Z) (l : list Z) : bool := existsb (Z.eqb v) l.
Lemma memz_In v l : memz v l = true <-> In v l.
Proof. unfold memz. rewrite existsb_exists. split; [intros [x [I E]]; apply Z.eqb_eq in E; subst; exact I|intros I; exists v; split; [exact I|apply Z.eqb_refl]]. Qed.

(** Corners, sides and faces of the icosahedron. *)
Definition sides : list (list Z) := map (fun e => [fst e; snd e]) (filter (fun e => fst e <? snd e) (flat_map edges3 ico_ts)).
Definition cells : list (list Z) := map (fun v => [v]) (zrange 0 12) ++ sides ++ map (fun t : triple => let '(x, y, z) := t in [x; y; z]) ico_ts.
Definition comps (c : list Z) (n : Z) : list (list Z) :=
  match c with
  | [_] => [[n]]
  | [_; _] => map (fun i => [n - i; i]) (zrange 1 n)
  | [_; _; _] => flat_map (fun i => map (fun j => [n - i - j; i; j]) (zrange 1 (n - i))) (zrange 1 n)
  | _ => []
  end.
Definition keys (n : Z) : list key := flat_map (fun c => map (combine c) (comps c n)) cells.

(** *** Compositions *)
Lemma comps_ok c n ws : In ws (comps c n) -> 1 <= n -> length ws = length c /\ Forall (fun w => 0 < w) ws /\ sumZ ws = n.
Proof.
  intros H Hn. destruct c as [|a [|b [|d [|e c]]]]; cbn [comps] in H; try contradiction.
  - destruct H as [<-|[]]. repeat split; [repeat constructor; lia|cbn; lia].
  - apply in_map_iff in H. destruct H as [i [<- Hi]]. apply in_zrange in Hi. repeat split; [repeat constructor; lia|cbn; lia].
  - apply in_flat_map in H. destruct H as [i [Hi H]]. apply in_map_iff in H. destruct H as [j [<- Hj]]. apply in_zrange in Hi, Hj. repeat split; [repeat constructor; lia|cbn; lia].
Qed.
Lemma comps_all c n ws : (1 <= length c <= 3)%nat -> length ws = length c -> Forall (fun w => 0 < w) ws -> sumZ ws = n -> In ws (comps c n).
Proof.
  intros L E P S. destruct c as [|a [|b [|d [|e c]]]]; cbn [length] in L; try lia; destruct ws as [|p [|q [|s [|t ws]]]]; try discriminate E; cbn [comps sumZ fold_right] in *;
  repeat match goal with H : Forall _ (_ :: _) |- _ => let H1 := fresh in apply Forall_cons_iff in H; destruct H as [H1 H] end.
  - left. f_equal. lia.
  - apply in_map_iff. exists q. split; [f_equal; lia|]. apply in_zrange. lia.
  - apply in_flat_map. exists q. split; [apply in_zrange; lia|]. apply in_map_iff. exists s. split; [f_equal; lia|]. apply in_zrange. lia.
Qed.
Lemma zrange_nodup a b : NoDup (zrange a b).
Proof. unfold zrange. apply FinFun.Injective_map_NoDup; [intros x y H; lia|apply seq_NoDup]. Qed.
Lemma nodup_map {A B} (f : A -> B) l : (forall x y, In x l -> In y l -> f x = f y -> x = y) -> NoDup l -> NoDup (map f l).
Proof.
  intros I N. induction N as [|x l NI N IH]; cbn [map]; constructor.
  - intros H. apply in_map_iff in H. destruct H as [y [E Hy]]. apply NI. rewrite (I x y (or_introl eq_refl) (or_intror Hy) (eq_sym E)). exact Hy.
  - apply IH. intros y z Hy Hz. apply I; right; assumption.
Qed.
Lemma nodup_flat {A B} (f : A -> list B) l : (forall x y b, In x l -> In y l -> In b (f x) -> In b (f y) -> x = y) -> NoDup l -> (forall x, In x l -> NoDup (f x)) -> NoDup (flat_map f l).
Proof.
  intros G N F. induction N as [|x l NI N IH]; cbn [flat_map]; [constructor|].
  assert (NoDup (flat_map f l)) as NF. { apply IH; [|intros y Hy; apply F; right; exact Hy]. intros y z b Hy Hz. apply G; right; assumption. }
  assert (NoDup (f x)) as NX by (apply F; left; reflexivity).
  assert (forall b, In b (f x) -> ~ In b (flat_map f l)) as D. { intros b Hb H. apply in_flat_map in H. destruct H as [y [Hy H]]. apply NI. rewrite (G x y b (or_introl eq_refl) (or_intror Hy) Hb H). exact Hy. }
  revert NX D. clear - NF. induction (f x) as [|b s IH]; intros NX D; cbn [app]; [exact NF|]. apply NoDup_cons_iff in NX. destruct NX as [N1 N2]. constructor.
  - rewrite in_app_iff. intros [H|H]; [contradiction|]. exact (D b (or_introl eq_refl) H).
  - apply IH; [exact N2|]. intros c Hc. apply D. right. exact Hc.
Qed.
Lemma comps_nodup c n : NoDup (comps c n).
Proof.
  destruct c as [|a [|b [|d [|e c]]]]; cbn [comps]; try (repeat constructor; intros []).
  - apply nodup_map; [|apply zrange_nodup]. intros x y _ _ H. congruence.
  - apply nodup_flat; [|apply zrange_nodup|].
    + intros x y w _ _ Hx Hy. apply in_map_iff in Hx, Hy. destruct Hx as [j [<- _]], Hy as [k [E _]]. congruence.
    + intros x _. apply nodup_map; [|apply zrange_nodup]. intros y z _ _ H. congruence.
Qed.
Lemma length_flat {A B} (f : A -> list B) l : length (flat_map f l) = fold_right (fun x s => (length (f x) + s)%nat) 0%nat l.
Proof. induction l as [|x l IH]; [reflexivity|]. cbn [flat_map fold_right]. rewrite app_length, IH. reflexivity. Qed.
Lemma comps3_len n a b d : 1 <= n -> 2 * Z.of_nat (length (comps [a; b; d] n)) = (n - 1) * (n - 2).
Proof.
  intros Hn. cbn [comps]. rewrite length_flat.
  assert (forall k, 0 <= k -> 2 * Z.of_nat (fold_right (fun x s => Nat.add (length (map (fun j => [n - x - j; x; j]) (zrange 1 (n - x)))) s) 0%nat (zrange (n - k) n)) = if k =? 0 then 0 else k * (k - 1)) as K.
  { intros k Hk. replace k with (Z.of_nat (Z.to_nat k)) by lia. induction (Z.to_nat k) as [|m IH]; [rewrite zrange_empty by lia; reflexivity|].
    rewrite zrange_cons by lia. cbn [fold_right]. rewrite map_length, Nat2Z.inj_add, Z.mul_add_distr_l. replace (n - Z.of_nat (S m) + 1) with (n - Z.of_nat m) by lia. rewrite IH.
    assert (length (zrange 1 (n - (n - Z.of_nat (S m)))) = m) as -> by (unfold zrange; rewrite map_length, seq_length; lia). destruct (Z.eqb_spec (Z.of_nat m) 0), (Z.eqb_spec (Z.of_nat (S m)) 0); nia. }
  specialize (K (n - 1) ltac:(lia)). replace (n - (n - 1)) with 1 in K by lia. rewrite K. destruct (Z.eqb_spec (n - 1) 0); nia.
Qed.
Lemma comps1_len n a : length (comps [a] n) = 1%nat. Proof. reflexivity. Qed.
Lemma comps2_len n a b : 1 <= n -> Z.of_nat (length (comps [a; b] n)) = n - 1.
Proof. intros Hn. cbn [comps]. rewrite map_length. unfold zrange. rewrite map_length, seq_length. lia. Qed.
Lemma keys_len n : 1 <= n -> Z.of_nat (length (keys n)) = 10 * n * n + 2.
Proof.
  intros Hn. unfold keys. rewrite length_flat.
  assert (forall l, fold_right (fun (c : list Z) s => (length (map (combine c) (comps c n)) + s)%nat) 0%nat l = fold_right (fun c s => (length (comps c n) + s)%nat) 0%nat l) as ->. { induction l as [|c l IH]; [reflexivity|]. cbn [fold_right]. rewrite map_length, IH. reflexivity. }
  assert (Permutation (map (@length Z) cells) (repeat 1%nat 12 ++ repeat 2%nat 30 ++ repeat 3%nat 20)) as PL by (vm_compute; apply Permutation_refl).
  assert (forall c, In c cells -> Z.of_nat (length (comps c n)) * 2 = if (length c =? 1)%nat then 2 else if (length c =? 2)%nat then 2 * (n - 1) else (n - 1) * (n - 2)) as LC.
  { intros c Hc. assert (In (length c) (repeat 1%nat 12 ++ repeat 2%nat 30 ++ repeat 3%nat 20)) as I by (apply (Permutation_in _ PL), in_map, Hc). rewrite !in_app_iff in I.
    destruct I as [I|[I|I]]; apply repeat_spec in I; destruct c as [|a [|b [|d [|e c]]]]; try discriminate I; cbn [length Nat.eqb]; [rewrite comps1_len; lia|rewrite <- (comps2_len n a b Hn); lia|rewrite <- (comps3_len n a b d Hn); lia]. }
  set (h := fun k : nat => if (k =? 1)%nat then 2 else if (k =? 2)%nat then 2 * (n - 1) else (n - 1) * (n - 2)).
  assert (forall l, incl l cells -> Z.of_nat (fold_right (fun c s => (length (comps c n) + s)%nat) 0%nat l) * 2 = fold_right (fun k s => h k + s) 0 (map (@length Z) l)) as SM.
  { induction l as [|c l IH]; intros HI; [reflexivity|]. cbn [fold_right map]. rewrite Nat2Z.inj_add, Z.mul_add_distr_r, IH, LC by (try (intros x Hx; apply HI; right; exact Hx); apply HI; left; reflexivity). reflexivity. }
  specialize (SM cells (incl_refl _)). assert (map (@length Z) cells = repeat 1%nat 12 ++ repeat 2%nat 30 ++ repeat 3%nat 20) as EL by (vm_compute; reflexivity). rewrite EL in SM.
  cbn [repeat app fold_right] in SM. unfold h in SM. cbn [Nat.eqb] in SM. nia.
Qed.

(** *** Weights of keys *)
Lemma wt_cons x i l v : wt ((x, i) :: l) v = (if x =? v then i else 0) + wt l v. Proof. reflexivity. Qed.
Lemma wt_out c ws v : ~ In v c -> wt (combine c ws) v = 0.
Proof.
  revert ws. induction c as [|x c IH]; intros [|w ws] H; try reflexivity. cbn [combine]. rewrite wt_cons. destruct (Z.eqb_spec x v) as [->|_]; [exfalso; apply H; left; reflexivity|]. rewrite IH; [reflexivity|]. intros I. apply H. right. exact I.
Qed.
Lemma wt_pos c ws v : length ws = length c -> Forall (fun w => 0 < w) ws -> 0 <= wt (combine c ws) v /\ (In v c -> 0 < wt (combine c ws) v).
Proof.
  revert ws. induction c as [|x c IH]; intros [|w ws] L P; try discriminate L; [cbn; split; [lia|intros []]|]. injection L as L. apply Forall_cons_iff in P. destruct P as [P1 P2].
  cbn [combine]. rewrite wt_cons. destruct (IH ws L P2) as [A B]. destruct (Z.eqb_spec x v) as [->|N]; [split; intros; lia|]. split; [lia|]. intros [E|I]; [contradiction|]. specialize (B I). lia.
Qed.
Lemma wt_inj c ws ws' : NoDup c -> length ws = length c -> length ws' = length c -> (forall v, wt (combine c ws) v = wt (combine c ws') v) -> ws = ws'.
Proof.
  intros N. revert ws ws'. induction N as [|x c NI N IH]; intros [|w ws] [|w' ws'] L L' E; try discriminate L; try discriminate L'; [reflexivity|]. injection L as L. injection L' as L'. cbn [combine] in E.
  assert (w = w') as ->. { specialize (E x). rewrite !wt_cons, Z.eqb_refl, !wt_out in E by assumption. lia. }
  f_equal. apply IH; try assumption. intros v. specialize (E v). rewrite !wt_cons in E. lia.
Qed.
Lemma wt_map c w v : NoDup c -> wt (combine c (map w c)) v = if memz v c then w v else 0.
Proof.
  induction 1 as [|x c NI N IH]; [reflexivity|]. cbn [map combine]. rewrite wt_cons, IH. cbn [memz existsb]. rewrite (Z.eqb_sym v x). fold (memz v c). destruct (Z.eqb_spec x v) as [->|_]; cbn [orb]; [|lia].
  destruct (memz v c) eqn:M; [apply memz_In in M; contradiction|lia].
Qed.
Lemma ind_sum x i : 0 <= x < 12 -> wsum (fun v => if x =? v then i else 0) = i.
Proof.
  intros H. unfold wsum. rewrite zr12. assert (In x (zrange 0 12)) as I by (apply in_zrange; exact H). rewrite zr12 in I.
  cbv [In] in I. repeat (destruct I as [<-|I]; [cbn [zsum fold_right Z.eqb Pos.eqb]; lia|]). contradiction I.
Qed.
Lemma wt_sum c ws : length ws = length c -> Forall (fun v => 0 <= v < 12) c -> wsum (wt (combine c ws)) = sumZ ws.
Proof.
  revert ws. induction c as [|x c IH]; intros [|w ws] L R; try discriminate L; [reflexivity|]. injection L as L. apply Forall_cons_iff in R. destruct R as [R1 R2]. cbn [combine sumZ fold_right]. fold (sumZ ws).
  transitivity (wsum (fun v => if x =? v then w else 0) + wsum (wt (combine c ws))); [|rewrite (IH ws L R2), (ind_sum x w R1); reflexivity].
  unfold wsum. rewrite <- zsum_plus. apply zsum_ext. intros v _. apply wt_cons.
Qed.

(** *** The cells *)
Definition nodupb (c : list Z) : bool := match c with [x] => true | [x; y] => negb (x =? y) | [x; y; z] => negb (x =? y) && negb (y =? z) && negb (z =? x) | _ => false end.
Definition lsub (c d : list Z) : bool := forallb (fun v => memz v d) c.
Definition sameset (c d : list Z) : bool := lsub c d && lsub d c.
Fixpoint leq (c d : list Z) : bool := match c, d with [], [] => true | x :: c, y :: d => (x =? y) && leq c d | _, _ => false end.
Lemma leq_ok c d : leq c d = true -> c = d.
Proof. revert d. induction c as [|x c IH]; intros [|y d] H; try discriminate H; [reflexivity|]. cbn [leq] in H. apply andb_prop in H. destruct H as [E H]. apply Z.eqb_eq in E. subst y. f_equal. apply IH. exact H. Qed.
Lemma nodupb_ok c : nodupb c = true -> NoDup c /\ (1 <= length c <= 3)%nat.
Proof.
  destruct c as [|x [|y [|z [|t c]]]]; cbn [nodupb length]; intros H; try discriminate H; (split; [|lia]).
  - repeat constructor. intros [].
  - destruct (Z.eqb_spec x y); [discriminate H|]. repeat constructor; cbn; intuition congruence.
  - destruct (Z.eqb_spec x y); [discriminate H|]. destruct (Z.eqb_spec y z); [discriminate H|]. destruct (Z.eqb_spec z x); [discriminate H|]. repeat constructor; cbn; intuition congruence.
Qed.
Lemma lsub_ok c d : lsub c d = true -> forall v, In v c -> In v d.
Proof. unfold lsub. rewrite forallb_forall. intros H v Hv. apply memz_In, H, Hv. Qed.
Lemma lsub_all c d : (forall v, In v c -> In v d) -> lsub c d = true.
Proof. unfold lsub. rewrite forallb_forall. intros H v Hv. apply memz_In, H, Hv. Qed.
Definition ids (A : triple) : list Z := let '(x, y, z) := A in [x; y; z].
Lemma cells_b : forallb (fun c => nodupb c && forallb (fun v => (0 <=? v) && (v <? 12)) c && existsb (fun A => lsub c (ids A)) ico_ts && forallb (fun d => leq c d || negb (sameset c d)) cells) cells = true.
Proof. vm_compute. reflexivity. Qed.
Lemma cell_ok c : In c cells -> (NoDup c /\ (1 <= length c <= 3)%nat) /\ Forall (fun v => 0 <= v < 12) c /\ (exists A, In A ico_ts /\ forall v, In v c -> In v (ids A)) /\
  (forall d, In d cells -> (forall v, In v c <-> In v d) -> c = d).
Proof.
  intros H. pose proof cells_b as B. rewrite forallb_forall in B. specialize (B c H). apply andb_prop in B. destruct B as [B B4]. apply andb_prop in B. destruct B as [B B3]. apply andb_prop in B. destruct B as [B1 B2].
  split; [apply nodupb_ok; exact B1|]. split; [|split].
  - apply Forall_forall. rewrite forallb_forall in B2. intros v Hv. specialize (B2 v Hv). apply andb_prop in B2. destruct B2 as [L U]. apply Z.leb_le in L. apply Z.ltb_lt in U. lia.
  - apply existsb_exists in B3. destruct B3 as [A [HA S]]. exists A. split; [exact HA|]. apply lsub_ok. exact S.
  - intros d Hd E. rewrite forallb_forall in B4. specialize (B4 d Hd). apply orb_prop in B4. destruct B4 as [Q|Q]; [apply leq_ok; exact Q|]. assert (sameset c d = true) as S by (unfold sameset; rewrite !lsub_all by (intros v; apply E); reflexivity). rewrite S in Q. discriminate Q.
Qed.
Definition nodupl (l : list (list Z)) : bool := (fix go l := match l with [] => true | c :: l => negb (existsb (leq c) l) && go l end) l.
Lemma nodupl_ok l : nodupl l = true -> NoDup l.
Proof.
  induction l as [|c l IH]; intros H; constructor; cbn in H; apply andb_prop in H; destruct H as [H1 H2]; [|apply IH; exact H2]. intros I. apply negb_true_iff in H1. assert (existsb (leq c) l = true) as K; [|congruence].
  apply existsb_exists. exists c. split; [exact I|]. clear. induction c as [|x c IH]; [reflexivity|]. cbn [leq]. rewrite Z.eqb_refl. exact IH.
Qed.
Lemma cells_nodup : NoDup cells. Proof. apply nodupl_ok. vm_compute. reflexivity. Qed.

Lemma in_keys n k : 1 <= n -> In k (keys n) -> exists c ws, k = combine c ws /\ In c cells /\ length ws = length c /\ Forall (fun w => 0 < w) ws /\ sumZ ws = n.
Proof.
  intros Hn H. unfold keys in H. apply in_flat_map in H. destruct H as [c [Hc H]]. apply in_map_iff in H. destruct H as [ws [<- Hw]]. exists c, ws. split; [reflexivity|]. split; [exact Hc|]. apply comps_ok; assumption.
Qed.
Lemma keys_all n c ws : In c cells -> length ws = length c -> Forall (fun w => 0 < w) ws -> sumZ ws = n -> In (combine c ws) (keys n).
Proof. intros Hc L P S. unfold keys. apply in_flat_map. exists c. split; [exact Hc|]. apply in_map. apply comps_all; try assumption. apply (cell_ok c Hc). Qed.
Lemma keys_inj n k k' : 1 <= n -> In k (keys n) -> In k' (keys n) -> (forall v, wt k v = wt k' v) -> k = k'.
Proof.
  intros Hn H H' E. destruct (in_keys n k Hn H) as [c [ws [-> [Hc [L [P _]]]]]]. destruct (in_keys n k' Hn H') as [c' [ws' [-> [Hc' [L' [P' _]]]]]].
  destruct (cell_ok c Hc) as [[N _] [_ [_ U]]]. assert (c = c') as <-.
  { apply U; [exact Hc'|]. intros v. split; intros I.
    - destruct (in_dec Z.eq_dec v c') as [J|J]; [exact J|exfalso]. pose proof (proj2 (wt_pos c ws v L P) I) as Q. rewrite E, wt_out in Q by exact J. lia.
    - destruct (in_dec Z.eq_dec v c) as [J|J]; [exact J|exfalso]. pose proof (proj2 (wt_pos c' ws' v L' P') I) as Q. rewrite <- E, wt_out in Q by exact J. lia. }
  f_equal. apply (wt_inj c); assumption.
Qed.
Lemma keys_nodup n : 1 <= n -> NoDup (keys n).
Proof.
  intros Hn. unfold keys. apply nodup_flat; [|exact cells_nodup|].
  - intros c d k Hc Hd Ik Jk. apply in_map_iff in Ik, Jk. destruct Ik as [ws [<- Hw]], Jk as [ws' [E Hw']]. apply comps_ok in Hw, Hw'; try exact Hn. apply (f_equal (map fst)) in E.
    assert (forall (c ws : list Z), length ws = length c -> map fst (combine c ws) = c) as K. { clear. induction c as [|x c IH]; intros [|w ws] L; try discriminate L; [reflexivity|]. cbn. f_equal. apply IH. injection L as L. exact L. }
    rewrite !K in E by (apply Hw || apply Hw'). symmetry. exact E.
  - intros c Hc. apply nodup_map; [|apply comps_nodup]. intros ws ws' Hw Hw' E. apply comps_ok in Hw, Hw'; try exact Hn. apply (wt_inj c); try (apply Hw || apply Hw' || apply (cell_ok c Hc)). intros v. rewrite E. reflexivity.
Qed.
Lemma key_on n k : 1 <= n -> In k (keys n) -> exists A, In A ico_ts /\ on n A (wt k).
Proof.
  intros Hn H. destruct (in_keys n k Hn H) as [c [ws [-> [Hc [L [P S]]]]]]. destruct (cell_ok c Hc) as [_ [R [[A [HA I]] _]]]. exists A. split; [exact HA|]. destruct A as [[x y] z]. split; [|split].
  - intros v. apply (wt_pos c ws v L P).
  - intros v NZ. destruct (in_dec Z.eq_dec v c) as [J|J]; [|rewrite wt_out in NZ by exact J; contradiction]. destruct (I v J) as [E|[E|[E|[]]]]; auto.
  - rewrite wt_sum by assumption. exact S.
Qed.
Lemma masks_b : forallb (fun A : triple => let '(x, y, z) := A in forallb (fun s => existsb (fun c => sameset s c) cells) [[x]; [y]; [z]; [x; y]; [x; z]; [y; z]; [x; y; z]]) ico_ts = true.
Proof. vm_compute. reflexivity. Qed.
Lemma on_key n A w : 1 <= n -> In A ico_ts -> on n A w -> exists k, In k (keys n) /\ forall v, wt k v = w v.
Proof.
  intros Hn HA O. destruct A as [[x y] z]. pose proof (on_sum n x y z w HA O) as SU. pose proof masks_b as B. rewrite forallb_forall in B. specialize (B _ HA). cbn beta iota in B. rewrite forallb_forall in B.
  set (s := filter (fun v => 0 <? w v) [x; y; z]). assert (In s [[x]; [y]; [z]; [x; y]; [x; z]; [y; z]; [x; y; z]]) as IS.
  { pose proof (proj1 O) as P. pose proof (P x). pose proof (P y). pose proof (P z). unfold s. cbn [filter]. destruct (Z.ltb_spec 0 (w x)), (Z.ltb_spec 0 (w y)), (Z.ltb_spec 0 (w z)); cbn [In]; try tauto. lia. }
  specialize (B s IS). apply existsb_exists in B. destruct B as [c [Hc SS]]. unfold sameset in SS. apply andb_prop in SS. destruct SS as [S1 S2]. pose proof (lsub_ok _ _ S1) as I1. pose proof (lsub_ok _ _ S2) as I2. clear S1 S2 IS.
  destruct (cell_ok c Hc) as [[N _] [R _]].
  assert (forall v, wt (combine c (map w c)) v = w v) as E.
  { intros v. rewrite (wt_map c w v N). destruct (memz v c) eqn:M; [reflexivity|]. destruct (Z.eq_dec (w v) 0) as [Q|Q]; [symmetry; exact Q|exfalso]. assert (memz v c = true) as K; [|congruence]. apply memz_In, I1. unfold s. apply filter_In. split.
    - destruct O as [_ [S _]]. destruct (S v Q) as [ -> | [ -> | -> ]]; cbn; auto.
    - apply Z.ltb_lt. pose proof (proj1 O v). lia. }
  exists (combine c (map w c)). split; [|exact E]. assert (length (map w c) = length c) as L by apply map_length. apply keys_all; try assumption.
  - apply Forall_forall. intros q Hq. apply in_map_iff in Hq. destruct Hq as [v [<- Hv]]. apply I2 in Hv. unfold s in Hv. apply filter_In in Hv. destruct Hv as [_ Hv]. apply Z.ltb_lt in Hv. exact Hv.
  - rewrite <- (wt_sum c (map w c) L R). transitivity (wsum w); [unfold wsum; apply zsum_ext; intros v _; apply E|apply O].
Qed.
