(** STEP files: names and references in the text. *)
From Coq Require Import String Ascii ZArith List Bool Lia Sorted.
From Verif Require Import Base Num MGeometry MNurbs MNurbsSurface MText MStep SObj SStep LBase LMesh LText.
Import ListNotations.
Open Scope Z_scope.

(** A text after which any continuation that does not begin with a digit or '#' is scanned separately. *)
Definition quiet (r : list Z) : Prop := match r with [] => True | c :: _ => is_digit c = false /\ c <> 35 end.
Definition stops (r : list Z) : Prop := match r with [] => True | c :: _ => is_digit c = false end.
Lemma quiet_stops r : quiet r -> stops r. Proof. destruct r; [auto|]. intros [H _]. exact H. Qed.
Lemma quiet_bol b b' r : quiet r -> hashes b r = hashes b' r.
Proof. destruct r as [|c r]; [reflexivity|]. intros [_ H]. cbn [hashes]. destruct (Z.eqb_spec c 35); [contradiction|reflexivity]. Qed.

Lemma plain t : ~ In 35 t -> forall b r, hashes b (t ++ r) = hashes (fold_left (fun _ c => c =? 10) t b) r.
Proof.
  induction t as [|c t IH]; intros H b r; [reflexivity|]. cbn [app hashes fold_left]. destruct (Z.eqb_spec c 35) as [->|NE]; [exfalso; apply H; left; reflexivity|]. apply IH. intros I. apply H. right. exact I.
Qed.
Lemma plain_quiet t : ~ In 35 t -> forall b r, quiet r -> hashes b (t ++ r) = hashes false r.
Proof. intros H b r Q. rewrite plain by exact H. apply quiet_bol, Q. Qed.
Lemma scan_stops acc r : stops r -> fst (scan_digits acc r) = acc.
Proof. destruct r as [|c r]; [reflexivity|]. cbn. intros ->. reflexivity. Qed.
Lemma hash_num b n r : 0 <= n -> stops r -> hashes b (35 :: show_int n ++ r) = (b, n) :: hashes false r.
Proof.
  intros Hn S. cbn [hashes]. change (35 =? 35) with true. cbv iota.
  assert (fst (scan_digits 0 (show_int n ++ r)) = n) as ->. { unfold show_int. rewrite (proj2 (Z.ltb_ge n 0)) by lia. unfold show_nat. rewrite digits_scan; [apply scan_stops, S|lia|apply show_nat_fuel; lia]. }
  f_equal. assert (~ In 35 (show_int n)) as P. { intros I. apply show_int_chars in I; lia. }
  assert (forall l b, (forall c, In c l -> c <> 10) -> b = false -> fold_left (fun _ c => c =? 10) l b = false) as FL.
  { induction l as [|c l IH]; intros b0 H B; [exact B|]. cbn [fold_left]. apply IH; [intros x I; apply H; right; exact I|]. apply Z.eqb_neq, H. left. reflexivity. }
  rewrite plain by exact P. f_equal. apply FL; [|reflexivity]. intros c I. apply show_int_chars in I; lia.
Qed.
Lemma stop_nl acc l r : fst (scan_digits acc (l ++ 10 :: r)) = fst (scan_digits acc l).
Proof. revert acc. induction l as [|c l IH]; intros acc; [reflexivity|]. cbn [app scan_digits]. destruct (is_digit c); [apply IH|reflexivity]. Qed.
Lemma hashes_nl l r : forall b, hashes b (l ++ endl ++ r) = hashes b l ++ hashes true r.
Proof.
  unfold endl. cbn [app]. induction l as [|c l IH]; intros b; [reflexivity|]. cbn [app hashes]. rewrite !IH. destruct (c =? 35); [|reflexivity]. rewrite stop_nl. reflexivity.
Qed.

Definition ids (a : Z) (n : nat) : list Z := map (fun i => a + Z.of_nat i) (seq 0 n).
Lemma ids_S a n : ids a (S n) = ids a n ++ [a + Z.of_nat n].
Proof. unfold ids. rewrite seq_S, map_app. reflexivity. Qed.
Lemma ids_app a n m : ids a (n + m) = ids a n ++ ids (a + Z.of_nat n) m.
Proof. unfold ids. rewrite seq_app, map_app. f_equal. cbn [Nat.add]. replace (seq n m) with (map (fun i => (n + i)%nat) (seq 0 m)). - rewrite !map_map. apply map_ext. intros i. lia.
  - clear. revert n. induction m as [|m IH]; intros n; [reflexivity|]. rewrite !seq_S, map_app, IH. reflexivity. Qed.
Lemma ids_In a n x : In x (ids a n) <-> a <= x < a + Z.of_nat n.
Proof. unfold ids. rewrite in_map_iff. split. - intros [i [<- I]]. apply in_seq in I. lia. - intros H. exists (Z.to_nat (x - a)). split; [lia|]. apply in_seq. lia. Qed.

Definition refsto (l : list Z) : list (bool * Z) := map (pair false) l.
Lemma row_ok nu t i0 : 0 <= nu -> 0 <= i0 -> exists body, for_ 0 nu (fun i s => Ok (fst s ++ str "#" ++ show_int (snd s) ++ (if i + 1 =? nu then [] else str ","), snd s + 1)) (t, i0) = Ok (t ++ body, i0 + nu) /\
  forall r, stops r -> hashes false (body ++ r) = refsto (ids i0 (Z.to_nat nu)) ++ hashes false r.
Proof.
  intros N0 H0. match goal with |- context [for_ 0 nu ?bd ?s0] => destruct (for_inv (fun i s => snd s = i0 + i /\ exists body, fst s = t ++ body /\ forall r, stops r -> hashes false (body ++ r) = refsto (ids i0 (Z.to_nat i)) ++ hashes false r) 0 nu bd s0 N0) as [s [E [E1 [body [E2 HB]]]]] end.
  - cbn [fst snd]. split; [lia|]. exists []. split; [rewrite app_nil_r; reflexivity|]. reflexivity.
  - intros i s Hi [E1 [body [E2 HB]]]. eexists. split; [reflexivity|]. cbn [fst snd]. split; [lia|]. eexists. split. { rewrite E2, <- app_assoc. reflexivity. }
    intros r Sr. rewrite <- app_assoc. rewrite HB by reflexivity. change (str "#") with [35]. cbn [app]. rewrite <- app_assoc. rewrite hash_num; [|lia|].
    + replace (Z.to_nat (i + 1)) with (S (Z.to_nat i)) by lia. rewrite ids_S. unfold refsto. rewrite map_app, <- app_assoc. cbn [map app]. rewrite E1, Z2Nat.id by lia. f_equal. f_equal.
      destruct (i + 1 =? nu); reflexivity.
    + destruct (i + 1 =? nu); [exact Sr|reflexivity].
  - exists body. destruct s as [ft fi]. cbn [fst snd] in *. subst. auto.
Qed.
Lemma rows_ok nu nv t i0 : 0 <= nu -> 0 <= nv -> 0 <= i0 -> exists body, sw_rows nu nv t i0 = Ok (t ++ body, i0 + nu * nv) /\ quiet body /\
  forall r, quiet r -> hashes false (body ++ r) = refsto (ids i0 (Z.to_nat (nu * nv))) ++ hashes false r.
Proof.
  intros N0 M0 H0. unfold sw_rows. match goal with |- context [for_ 0 nv ?bd ?s0] => destruct (for_inv (fun j s => snd s = i0 + nu * j /\ exists body, fst s = t ++ body /\ quiet body /\ forall r, quiet r -> hashes false (body ++ r) = refsto (ids i0 (Z.to_nat (nu * j))) ++ hashes false r) 0 nv bd s0 M0) as [s [E [E1 [body [E2 [Q HB]]]]]] end.
  - cbn [fst snd]. split; [lia|]. exists []. split; [rewrite app_nil_r; reflexivity|]. split; [exact I|]. rewrite Z.mul_0_r. reflexivity.
  - intros j s Hj [E1 [body [E2 [Q HB]]]]. pose proof (Z.mul_nonneg_nonneg nu j ltac:(lia) ltac:(lia)) as NJ. destruct (row_ok nu (fst s ++ str "(") (snd s) N0 ltac:(lia)) as (row & ER & HR). rewrite ER. cbn [bind fst snd]. eexists. split; [reflexivity|]. cbn [fst snd].
    split; [lia|]. eexists. split. { rewrite E2, <- !app_assoc. reflexivity. } split. { destruct body; [split; [reflexivity|discriminate]|exact Q]. }
    intros r Qr. rewrite <- !app_assoc. rewrite HB by (split; [reflexivity|discriminate]). change (str "(") with [40]. cbn [app]. cbn [hashes]. change (40 =? 35) with false. change (40 =? 10) with false. cbv iota.
    rewrite HR by reflexivity. replace (Z.to_nat (nu * (j + 1))) with (Z.to_nat (nu * j) + Z.to_nat nu)%nat by lia. rewrite ids_app. unfold refsto. rewrite map_app, <- app_assoc. rewrite Z2Nat.id by lia. rewrite E1. f_equal. f_equal.
    rewrite (app_assoc (str ")")). apply plain_quiet; [|exact Qr]. destruct (j + 1 =? nv); cbn; intuition discriminate.
  - exists body. destruct s as [ft fi]. cbn [fst snd] in *. subst. split; [exact E|]. split; [exact Q|]. rewrite Z.mul_comm. rewrite (Z.mul_comm nv nu). exact HB.
Qed.

Lemma map_repeat {A B} (f : A -> B) x n : map f (repeat x n) = repeat (f x) n.
Proof. induction n; cbn; congruence. Qed.
Lemma nth_error_skipn {A} (l : list A) n i : nth_error (skipn n l) i = nth_error l (n + i).
Proof. revert l. induction n as [|n IH]; intros l; [reflexivity|]. destruct l; [destruct i; reflexivity|]. apply IH. Qed.
Lemma commas_snoc l x : commas (l ++ [x]) = flat_map (fun y => y ++ str ",") l ++ x.
Proof. induction l as [|y l IH]; [reflexivity|]. cbn [app flat_map]. rewrite <- !app_assoc. rewrite <- IH. destruct l; reflexivity. Qed.
Lemma mults_ok deg size t : 2 * deg + 2 <= size -> sw_mults deg size t = Ok (t ++ group (map show_int (deg + 1 :: repeat 1 (Z.to_nat (size - 2 * deg - 2)) ++ [deg + 1])) ++ endl).
Proof.
  intros H. unfold sw_mults. destruct (Z.ltb_spec (size - deg * 2 - 2) 0) as [|_]; [lia|].
  match goal with |- context [for_ 0 ?n ?bd ?s0] => destruct (for_inv (fun i u => u = s0 ++ flat_map (fun y => y ++ str ",") (repeat (str "1") (Z.to_nat i))) 0 n bd s0) as [u [E Hu]] end.
  - lia.
  - cbn [Z.to_nat repeat flat_map]. rewrite app_nil_r. reflexivity.
  - intros i u Hi ->. eexists. split; [reflexivity|]. replace (Z.to_nat (i + 1)) with (Z.to_nat i + 1)%nat by lia. rewrite repeat_app, flat_map_app. cbn [repeat flat_map]. rewrite app_nil_r, <- !app_assoc. reflexivity.
  - rewrite E. cbn [bind]. rewrite Hu. unfold group. cbn [map]. rewrite map_app. change (show_int (deg + 1) :: map show_int (repeat 1 (Z.to_nat (size - 2 * deg - 2))) ++ map show_int [deg + 1]) with ((show_int (deg + 1) :: map show_int (repeat 1 (Z.to_nat (size - 2 * deg - 2)))) ++ [show_int (deg + 1)]).
    rewrite commas_snoc. cbn [flat_map]. replace (map show_int (repeat 1 (Z.to_nat (size - 2 * deg - 2)))) with (repeat (str "1") (Z.to_nat (size - deg * 2 - 2))) by (rewrite map_repeat; change (show_int 1) with (str "1"); f_equal; lia). rewrite <- !app_assoc. reflexivity.
Qed.

Section Text.
Context {T : Type} {X : Text T}.
Definition mid (deg : Z) (k : list T) : list T := firstn (Z.to_nat (vsize k - 2 * deg)) (skipn (Z.to_nat deg) k).
Lemma knots_ok deg (k : list T) t : 0 <= deg -> 2 * deg + 1 <= vsize k -> sw_knots deg k t = Ok (t ++ commas (map f_show (mid deg k))).
Proof.
  intros H0 H. unfold sw_knots. destruct (Z.ltb_spec deg 0); [lia|]. destruct (Z.ltb_spec (vsize k - deg) 0); [lia|].
  match goal with |- context [for_ deg ?n ?bd ?s0] => destruct (for_inv (fun i u => let l := firstn (Z.to_nat (i - deg)) (skipn (Z.to_nat deg) k) in u = s0 ++ (if i =? n then commas (map f_show l) else flat_map (fun y => y ++ str ",") (map f_show l))) deg n bd s0) as [u [E Hu]] end.
  - lia.
  - cbv zeta. rewrite Z.sub_diag. destruct (Z.eqb_spec deg (vsize k - deg)); [lia|]. cbn. rewrite app_nil_r. reflexivity.
  - intros i u Hi Hu. cbv zeta in *. destruct (vget_in_range k i ltac:(lia)) as [x Ex]. rewrite Ex. cbn [bind]. destruct (Z.eqb_spec i (vsize k - deg)); [lia|].
    assert (vget (skipn (Z.to_nat deg) k) (i - deg) = Ok x) as Ex'. { apply vget_Ok in Ex as [_ Ex]. unfold vget. destruct (Z.ltb_spec (i - deg) 0); [lia|]. rewrite nth_error_skipn. replace (Z.to_nat deg + Z.to_nat (i - deg))%nat with (Z.to_nat i) by lia. rewrite Ex. reflexivity. }
    eexists. split; [reflexivity|]. replace (i + 1 - deg) with (i - deg + 1) by lia. rewrite (firstn_vget _ _ _ Ex'), map_app. cbn [map]. rewrite Hu.
    destruct (Z.eqb_spec i (vsize k - deg - 1)), (Z.eqb_spec (i + 1) (vsize k - deg)); try lia.
    + rewrite commas_snoc, <- !app_assoc, app_nil_r. reflexivity.
    + rewrite flat_map_app. cbn [flat_map]. rewrite <- !app_assoc, app_nil_r. reflexivity.
  - rewrite E. cbv zeta in Hu. rewrite Z.eqb_refl in Hu. rewrite Hu. unfold mid. do 5 f_equal. lia.
Qed.
Lemma weights_ok nu nv (w : list T) t : no_hash -> 0 <= nu -> 0 <= nv -> vsize w = nu * nv -> exists body, sw_weights nu nv w t = Ok (t ++ body) /\ ~ In 35 body.
Proof.
  intros NH N0 M0 SW. unfold sw_weights. match goal with |- context [for_ 0 nv ?bd ?s0] => destruct (for_inv (fun j u => exists body, u = t ++ body /\ ~ In 35 body) 0 nv bd s0 M0) as [u [E [body [E2 HB]]]] end.
  - exists []. split; [rewrite app_nil_r; reflexivity|intros []].
  - intros j u Hj [body [-> HB]]. match goal with |- context [for_ 0 nu ?bd ?s0] => destruct (for_inv (fun i u => exists b2, u = t ++ b2 /\ ~ In 35 b2) 0 nu bd s0 N0) as [u [E [b2 [E2 HB2]]]] end.
    + eexists. split; [rewrite <- app_assoc; reflexivity|]. intros I. apply in_app_or in I as [I|[I|[]]]; [exact (HB I)|discriminate].
    + intros i u Hi [b2 [-> HB2]]. destruct (vget_in_range w (nu * j + i)) as [x Ex]. { rewrite SW. pose proof (Z.mul_nonneg_nonneg nu j ltac:(lia) ltac:(lia)). pose proof (Z.mul_le_mono_nonneg_l (j + 1) nv nu ltac:(lia) ltac:(lia)). lia. }
      rewrite Ex. cbn [bind]. eexists. split; [reflexivity|]. eexists. split; [rewrite <- app_assoc; reflexivity|]. intros I. apply in_app_or in I as [I|I]; [exact (HB2 I)|]. apply in_app_or in I as [I|I]; [exact (NH x I)|]. destruct (i + 1 =? nu); [destruct I|]. destruct I as [I|[]]; discriminate.
    + rewrite E. cbn [bind]. eexists. split; [reflexivity|]. rewrite E2. eexists. split; [rewrite <- app_assoc; reflexivity|]. intros I. apply in_app_or in I as [I|I]; [exact (HB2 I)|]. destruct (j + 1 =? nv); cbn in I; intuition discriminate.
  - exists body. subst. auto.
Qed.

(** Control points. *)
Lemma points_ok (NH : no_hash) (ps : list (Point3 T)) : forall w, 0 <= sw_id w -> exists body, fold_left sw_point ps w = mkSW (sw_text w ++ body) (sw_id w + vsize ps) /\
  forall r, hashes true (body ++ r) = map (pair true) (ids (sw_id w) (length ps)) ++ hashes true r.
Proof.
  induction ps as [|p ps IH]; intros w H0.
  - exists []. split; [rewrite app_nil_r; unfold vsize; cbn; rewrite Z.add_0_r; destruct w; reflexivity|]. reflexivity.
  - cbn [fold_left]. destruct (IH (sw_point w p)) as (body & E & HB). { cbn; lia. } rewrite E. cbn [sw_point sw_text sw_id]. eexists. split. { rewrite <- app_assoc. f_equal. unfold vsize. cbn [length]. lia. }
    intros r. rewrite <- !app_assoc. rewrite !app_assoc. rewrite <- (app_assoc _ endl). rewrite <- (app_assoc _ (endl ++ body)). rewrite <- (app_assoc endl). rewrite hashes_nl. rewrite HB. cbn [sw_point sw_id].
    cbn [length]. change (S (length ps)) with (1 + length ps)%nat. rewrite ids_app. change (ids (sw_id w) 1) with [sw_id w + 0]. change (Z.of_nat 1) with 1. cbn [map app]. rewrite Z.add_0_r. cbn [map app].
    assert (forall l n b, 0 <= n -> ~ In 35 l -> stops l -> hashes b (35 :: show_int n ++ l) = [(b, n)]) as ONE. { intros l n b Hn HL HS. rewrite hash_num by assumption. rewrite <- (app_nil_r l), plain by exact HL. reflexivity. }
    rewrite <- !app_assoc. change (str "#") with [35]. cbn [app]. rewrite ONE; [reflexivity|lia| |reflexivity].
    intros I. repeat (apply in_app_or in I as [I|I]); try (exact (NH _ I)); cbn in I; intuition discriminate.
Qed.
End Text.
