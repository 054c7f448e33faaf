(** Lemmas about the fault monad, vectors and loops. *)
From Coq Require Import ZArith List Bool Lia.
From Verif Require Import Base.
Import ListNotations.
Open Scope Z_scope.

Lemma bind_Ok {A B} (x : res A) (k : A -> res B) b :
  bind x k = Ok b -> exists a, x = Ok a /\ k a = Ok b.
Proof. destruct x; simpl; intros H; [eauto | discriminate]. Qed.

Lemma massert_Ok b u : massert b = Ok u -> b = true.
Proof. destruct b; simpl; intros; [reflexivity | discriminate]. Qed.

Lemma iint_ok z : int_min <= z <= int_max -> iint z = Ok z.
Proof. intros [A B]. unfold iint. apply Z.leb_le in A, B. rewrite A, B. reflexivity. Qed.
Lemma iint_big z : int_max < z -> iint z = Err FOverflow.
Proof. intros A. unfold iint. destruct (Z.leb_spec z int_max); [lia|]. rewrite andb_false_r. reflexivity. Qed.
Lemma iint_bad z : ~ int_min <= z <= int_max -> iint z = Err FOverflow.
Proof. intros A. unfold iint. destruct (Z.leb_spec int_min z), (Z.leb_spec z int_max); cbn; [lia|reflexivity..]. Qed.
Lemma iint_Ok z k : iint z = Ok k -> k = z /\ int_min <= z <= int_max.
Proof. unfold iint. destruct (Z.leb_spec int_min z), (Z.leb_spec z int_max); cbn; intros E; try discriminate. injection E as <-. lia. Qed.
Lemma massert_true b : b = true -> massert b = Ok tt.
Proof. intros ->; reflexivity. Qed.

Lemma bind_massert_true {A} b (k : unit -> res A) : b = true -> bind (massert b) k = k tt.
Proof. intros ->; reflexivity. Qed.

(** Invert a successful monadic computation in hypothesis [H]. *)
Ltac inv_bind H :=
  cbv beta zeta in H;
  lazymatch type of H with
  | bind _ _ = Ok _ =>
      let x := fresh "x" in let E := fresh "E" in
      apply bind_Ok in H; destruct H as [x [E H]]
  end.

Lemma vsize_app {A} (u v : list A) : vsize (u ++ v) = vsize u + vsize v.
Proof. unfold vsize. rewrite app_length. lia. Qed.
Lemma vsize_nonneg {A} (v : list A) : 0 <= vsize v.
Proof. unfold vsize. lia. Qed.
Lemma vsize_cons {A} (x : A) v : vsize (x :: v) = 1 + vsize v.
Proof. unfold vsize. simpl length. lia. Qed.
Lemma vsize_nil {A} : vsize (@nil A) = 0.
Proof. reflexivity. Qed.
Lemma vsize_map {A B} (f : A -> B) v : vsize (map f v) = vsize v.
Proof. unfold vsize. rewrite map_length. reflexivity. Qed.
Lemma vsize_push {A} (v : list A) x : vsize (vpush v x) = vsize v + 1.
Proof. unfold vpush. rewrite vsize_app. reflexivity. Qed.
Lemma vsize_repeat {A} (x : A) n : vsize (repeat x n) = Z.of_nat n.
Proof. unfold vsize. rewrite repeat_length. reflexivity. Qed.

Lemma vget_Ok {A} (v : list A) i x :
  vget v i = Ok x <-> 0 <= i /\ nth_error v (Z.to_nat i) = Some x.
Proof.
  unfold vget. destruct (Z.ltb_spec i 0).
  - split; [discriminate | lia].
  - destruct (nth_error v (Z.to_nat i)) eqn:E; split; intros H0.
    + injection H0 as ->. auto.
    + destruct H0 as [_ H0]. injection H0 as ->. reflexivity.
    + discriminate.
    + destruct H0; discriminate.
Qed.

Lemma vget_range {A} (v : list A) i x : vget v i = Ok x -> 0 <= i < vsize v.
Proof.
  rewrite vget_Ok. intros [H E]. split; [lia|].
  assert (nth_error v (Z.to_nat i) <> None) as HN by congruence.
  apply nth_error_Some in HN. unfold vsize. lia.
Qed.

Lemma vget_in_range {A} (v : list A) i : 0 <= i < vsize v -> exists x, vget v i = Ok x.
Proof.
  unfold vsize. intros H. destruct (nth_error v (Z.to_nat i)) eqn:E.
  - exists a. apply vget_Ok. split; [lia|assumption].
  - apply nth_error_None in E. lia.
Qed.

Lemma vget_app_l {A} (u v : list A) i : i < vsize u -> vget (u ++ v) i = vget u i.
Proof.
  unfold vget, vsize. intros. destruct (Z.ltb_spec i 0); [reflexivity|].
  rewrite nth_error_app1 by lia. reflexivity.
Qed.

Lemma vget_app_r {A} (u v : list A) i : vsize u <= i -> vget (u ++ v) i = vget v (i - vsize u).
Proof.
  unfold vget, vsize. intros. destruct (Z.ltb_spec i 0); [lia|].
  destruct (Z.ltb_spec (i - Z.of_nat (length u)) 0); [lia|].
  rewrite nth_error_app2 by lia.
  replace (Z.to_nat (i - Z.of_nat (length u))) with (Z.to_nat i - length u)%nat by lia.
  reflexivity.
Qed.

Lemma vget_last {A} (v : list A) x : vget (vpush v x) (vsize v) = Ok x.
Proof.
  unfold vpush. rewrite vget_app_r by lia. rewrite Z.sub_diag. reflexivity.
Qed.

Lemma vget_map {A B} (f : A -> B) v i :
  vget (map f v) i = match vget v i with Ok x => Ok (f x) | Err e => Err e end.
Proof.
  unfold vget. destruct (i <? 0); [reflexivity|].
  rewrite nth_error_map. destruct (nth_error v (Z.to_nat i)); reflexivity.
Qed.

Lemma vget_In {A} (v : list A) i x : vget v i = Ok x -> In x v.
Proof. rewrite vget_Ok. intros [_ H]. eapply nth_error_In; eauto. Qed.

Lemma In_vget {A} (v : list A) x : In x v -> exists i, 0 <= i < vsize v /\ vget v i = Ok x.
Proof.
  intros H. apply In_nth_error in H. destruct H as [n Hn].
  assert (vget v (Z.of_nat n) = Ok x) as E.
  { apply vget_Ok. split; [lia|]. rewrite Nat2Z.id. assumption. }
  exists (Z.of_nat n). split; [eapply vget_range; eauto | assumption].
Qed.

Lemma vget_ext {A} (u v : list A) :
  vsize u = vsize v -> (forall i, 0 <= i < vsize u -> vget u i = vget v i) -> u = v.
Proof.
  unfold vsize. revert v. induction u as [|a u IH]; intros [|b v] HL H; simpl in HL; try lia.
  - reflexivity.
  - f_equal.
    + specialize (H 0 ltac:(simpl; lia)). cbn in H. congruence.
    + apply IH; [lia|]. intros i Hi. specialize (H (i + 1) ltac:(simpl length; lia)).
      change (a :: u) with ([a] ++ u) in H. change (b :: v) with ([b] ++ v) in H.
      rewrite !vget_app_r in H by (unfold vsize; simpl; lia).
      change (vsize [a]) with 1 in H. change (vsize [b]) with 1 in H.
      replace (i + 1 - 1) with i in H by lia. assumption.
Qed.

Lemma list_set_length {A} (v : list A) n x : length (list_set v n x) = length v.
Proof. revert n. induction v; intros [|n]; simpl; auto. Qed.

Lemma nth_error_list_set {A} (v : list A) n x k :
  (n < length v)%nat ->
  nth_error (list_set v n x) k = if Nat.eqb k n then Some x else nth_error v k.
Proof.
  revert n k. induction v as [|a v IH]; intros [|n] [|k] H; simpl in *; try lia; auto.
  - apply IH. lia.
Qed.

Lemma map_list_set {A B} (f : A -> B) v n x :
  map f (list_set v n x) = list_set (map f v) n (f x).
Proof. revert n. induction v; intros [|n]; simpl; congruence. Qed.

Lemma list_set_same {A} (v : list A) n x : nth_error v n = Some x -> list_set v n x = v.
Proof. revert n. induction v; intros [|n]; simpl; intros; try congruence. f_equal; auto. Qed.

Lemma vset_Ok {A} (v : list A) i x v' :
  vset v i x = Ok v' <-> (0 <= i < vsize v /\ v' = list_set v (Z.to_nat i) x).
Proof.
  unfold vset. destruct (Z.ltb_spec i 0); destruct (Z.leb_spec (vsize v) i); simpl;
    split; intros HH; try discriminate; try lia.
  - injection HH as <-. split; [lia|reflexivity].
  - destruct HH as [_ ->]. reflexivity.
Qed.

Lemma vset_size {A} (v : list A) i x v' : vset v i x = Ok v' -> vsize v' = vsize v.
Proof. rewrite vset_Ok. intros [_ ->]. unfold vsize. rewrite list_set_length. reflexivity. Qed.

Lemma vset_in_range {A} (v : list A) i x :
  0 <= i < vsize v -> vset v i x = Ok (list_set v (Z.to_nat i) x).
Proof. intros. apply vset_Ok. auto. Qed.

Lemma vget_vset {A} (v : list A) i x v' j :
  vset v i x = Ok v' -> vget v' j = if j =? i then Ok x else vget v j.
Proof.
  rewrite vset_Ok. intros [H ->]. unfold vget.
  destruct (Z.ltb_spec j 0).
  - destruct (Z.eqb_spec j i); [lia|reflexivity].
  - rewrite nth_error_list_set by (unfold vsize in H; lia).
    destruct (Z.eqb_spec j i).
    + subst. rewrite Nat.eqb_refl. reflexivity.
    + destruct (Nat.eqb_spec (Z.to_nat j) (Z.to_nat i)); [lia|reflexivity].
Qed.

Lemma list_set_ge {A} (v : list A) n x : (length v <= n)%nat -> list_set v n x = v.
Proof. revert n. induction v; intros [|n]; simpl; intros; try reflexivity; try lia. f_equal. apply IHv. lia. Qed.

Lemma list_set_app_l {A} (u v : list A) n x :
  (n < length u)%nat -> list_set (u ++ v) n x = list_set u n x ++ v.
Proof. revert n. induction u; intros [|n]; simpl; intros; try lia; try reflexivity. f_equal. apply IHu. lia. Qed.

(** ** Loops *)

Lemma loop_inv {S} (I : Z -> S -> Prop) (body : Z -> S -> res S) n :
  forall a s,
  I a s ->
  (forall i s, a <= i < a + Z.of_nat n -> I i s -> exists s', body i s = Ok s' /\ I (i + 1) s') ->
  exists s', loop n a body s = Ok s' /\ I (a + Z.of_nat n) s'.
Proof.
  induction n as [|n IH]; intros a s H0 Hstep.
  - exists s. split; [reflexivity|]. replace (a + Z.of_nat 0) with a by lia. assumption.
  - destruct (Hstep a s ltac:(lia) H0) as [s1 [E1 H1]].
    destruct (IH (a + 1) s1 H1) as [s2 [E2 H2]].
    { intros i s' Hi. apply Hstep. lia. }
    exists s2. split.
    + simpl. rewrite E1. simpl. assumption.
    + replace (a + Z.of_nat (Datatypes.S n)) with (a + 1 + Z.of_nat n) by lia. assumption.
Qed.

(** Total correctness of a for loop. *)
Lemma for_inv {S} (I : Z -> S -> Prop) a b (body : Z -> S -> res S) s :
  a <= b -> I a s ->
  (forall i s, a <= i < b -> I i s -> exists s', body i s = Ok s' /\ I (i + 1) s') ->
  exists s', for_ a b body s = Ok s' /\ I b s'.
Proof.
  intros Hab H0 Hstep. unfold for_.
  destruct (loop_inv I body (Z.to_nat (b - a)) a s H0) as [s' [E H]].
  - intros i s' Hi. apply Hstep. lia.
  - exists s'. split; [assumption|]. replace b with (a + Z.of_nat (Z.to_nat (b - a))) at 1 by lia.
    assumption.
Qed.

Lemma loop_inv_part {S} (I : Z -> S -> Prop) (body : Z -> S -> res S) n :
  forall a s s',
  I a s ->
  (forall i s s', a <= i < a + Z.of_nat n -> I i s -> body i s = Ok s' -> I (i + 1) s') ->
  loop n a body s = Ok s' -> I (a + Z.of_nat n) s'.
Proof.
  induction n as [|n IH]; intros a s s' H0 Hstep E.
  - injection E as <-. replace (a + Z.of_nat 0) with a by lia. assumption.
  - simpl in E. inv_bind E.
    replace (a + Z.of_nat (Datatypes.S n)) with (a + 1 + Z.of_nat n) by lia.
    eapply IH; [| |exact E].
    + eapply Hstep; [lia|exact H0|exact E0].
    + intros i t t' Hi. apply Hstep. lia.
Qed.

(** Partial correctness of a for loop. *)
Lemma for_inv_part {S} (I : Z -> S -> Prop) a b (body : Z -> S -> res S) s s' :
  a <= b -> I a s ->
  (forall i s s', a <= i < b -> I i s -> body i s = Ok s' -> I (i + 1) s') ->
  for_ a b body s = Ok s' -> I b s'.
Proof.
  intros Hab H0 Hstep E. unfold for_ in E.
  replace b with (a + Z.of_nat (Z.to_nat (b - a))) by lia.
  eapply loop_inv_part; [exact H0| |exact E].
  intros i t t' Hi. apply Hstep. lia.
Qed.

Lemma for_empty {S} a b (body : Z -> S -> res S) s : b <= a -> for_ a b body s = Ok s.
Proof. intros. unfold for_. replace (Z.to_nat (b - a)) with O by lia. reflexivity. Qed.

Lemma for_step {S} a b (body : Z -> S -> res S) s :
  a < b -> for_ a b body s = bind (body a s) (fun s' => for_ (a + 1) b body s').
Proof.
  intros. unfold for_. replace (Z.to_nat (b - a)) with (Datatypes.S (Z.to_nat (b - (a + 1)))) by lia.
  reflexivity.
Qed.

Lemma loop_last {S} n : forall a (body : Z -> S -> res S) s,
  loop (Datatypes.S n) a body s = bind (loop n a body s) (body (a + Z.of_nat n)).
Proof.
  induction n; intros.
  - cbn [loop]. simpl (loop 0 a body s). cbn [bind]. replace (a + Z.of_nat 0) with a by lia.
    destruct (body a s); reflexivity.
  - change (loop (Datatypes.S (Datatypes.S n)) a body s)
      with (bind (body a s) (fun s' => loop (Datatypes.S n) (a + 1) body s')).
    change (loop (Datatypes.S n) a body s) with (bind (body a s) (fun s' => loop n (a + 1) body s')).
    destruct (body a s); cbn [bind]; [|reflexivity].
    rewrite IHn. replace (a + 1 + Z.of_nat n) with (a + Z.of_nat (Datatypes.S n)) by lia. reflexivity.
Qed.

Lemma for_last {S} a b (body : Z -> S -> res S) s :
  a <= b -> for_ a (b + 1) body s = bind (for_ a b body s) (body b).
Proof.
  intros. unfold for_.
  replace (Z.to_nat (b + 1 - a)) with (Datatypes.S (Z.to_nat (b - a))) by lia.
  rewrite loop_last. replace (a + Z.of_nat (Z.to_nat (b - a))) with b by lia. reflexivity.
Qed.

Lemma loop_ext {S} n : forall a (f g : Z -> S -> res S) s,
  (forall i s, a <= i < a + Z.of_nat n -> f i s = g i s) -> loop n a f s = loop n a g s.
Proof.
  induction n; intros; [reflexivity|]. simpl. rewrite H by lia.
  destruct (g a s); cbn [bind]; [|reflexivity]. apply IHn. intros. apply H. lia.
Qed.

Lemma for_ext {S} a b (f g : Z -> S -> res S) s :
  (forall i s, a <= i < b -> f i s = g i s) -> for_ a b f s = for_ a b g s.
Proof. intros. unfold for_. apply loop_ext. intros. apply H. lia. Qed.

(** Integer interval [a, a+1, ..., b-1]. *)
Definition zrange (a b : Z) : list Z := map (fun k => a + Z.of_nat k) (seq 0 (Z.to_nat (b - a))).

Lemma zrange_empty a b : b <= a -> zrange a b = [].
Proof. intros. unfold zrange. replace (Z.to_nat (b - a)) with O by lia. reflexivity. Qed.

Lemma zrange_last a b : a <= b -> zrange a (b + 1) = zrange a b ++ [b].
Proof.
  intros. unfold zrange. replace (Z.to_nat (b + 1 - a)) with (Datatypes.S (Z.to_nat (b - a))) by lia.
  rewrite seq_S, map_app. simpl. repeat f_equal. lia.
Qed.

Lemma zrange_cons a b : a < b -> zrange a b = a :: zrange (a + 1) b.
Proof.
  intros. unfold zrange. replace (Z.to_nat (b - a)) with (Datatypes.S (Z.to_nat (b - (a + 1)))) by lia.
  simpl. f_equal; [lia|]. rewrite <- seq_shift, map_map. apply map_ext. intros. lia.
Qed.

Lemma in_zrange a b i : In i (zrange a b) <-> a <= i < b.
Proof.
  unfold zrange. rewrite in_map_iff. split.
  - intros [k [<- Hk]]. apply in_seq in Hk. lia.
  - intros H. exists (Z.to_nat (i - a)). split; [lia|]. apply in_seq. lia.
Qed.

Lemma vsize_zrange a b : vsize (zrange a b) = Z.max 0 (b - a).
Proof. unfold vsize, zrange. rewrite map_length, seq_length. lia. Qed.

Lemma zrange_app a b c : a <= b <= c -> zrange a c = zrange a b ++ zrange b c.
Proof.
  intros. unfold zrange. replace (Z.to_nat (c - a)) with (Z.to_nat (b - a) + Z.to_nat (c - b))%nat by lia.
  rewrite seq_app, map_app. f_equal. simpl.
  rewrite <- (Nat.add_0_r (Z.to_nat (b - a))) at 1.
  assert (forall k n s, map (fun x => a + Z.of_nat x) (seq (n + k) s)
            = map (fun x => a + Z.of_nat n + Z.of_nat x) (seq k s)) as G.
  { intros k n s. revert k. induction s; intros; simpl; [reflexivity|]. f_equal; [lia|].
    replace (Datatypes.S (n + k)) with (n + Datatypes.S k)%nat by lia. apply IHs. }
  rewrite G. apply map_ext. intros. lia.
Qed.

(** A loop whose body always succeeds is a fold. *)
Lemma for_fold {S} a b (f : Z -> S -> S) s :
  for_ a b (fun i s => Ok (f i s)) s = Ok (fold_left (fun s i => f i s) (zrange a b) s).
Proof.
  unfold for_. remember (Z.to_nat (b - a)) as n eqn:En.
  assert (forall a s, loop n a (fun i s => Ok (f i s)) s
            = Ok (fold_left (fun s i => f i s) (map (fun k => a + Z.of_nat k) (seq 0 n)) s)) as G.
  { clear. induction n; intros; [reflexivity|]. simpl. rewrite IHn. f_equal.
    replace (a + 0) with a by lia. f_equal. rewrite <- seq_shift, map_map. apply map_ext. intros; lia. }
  rewrite G. unfold zrange. rewrite En. reflexivity.
Qed.
