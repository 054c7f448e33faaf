(** Text streams. *)
From Coq Require Import ZArith List Bool Lia String.
From Verif Require Import Base Num MText SObj LBase.
Import ListNotations.
Open Scope Z_scope.

Lemma digits_scan fuel : forall n rest, (1 <= fuel)%nat -> 0 <= n < 2 ^ Z.of_nat fuel -> scan_digits 0 (digits fuel n ++ rest) = scan_digits n rest.
Proof.
  induction fuel as [|fuel IH]; [lia|]. intros n rest _ Hn. cbn [digits]. destruct (Z.ltb_spec n 10) as [H|H].
  - cbn [app scan_digits]. unfold is_digit. rewrite (proj2 (Z.leb_le 48 (48 + n))) by lia. rewrite (proj2 (Z.leb_le (48 + n) 57)) by lia. cbn [andb]. f_equal. lia.
  - rewrite <- app_assoc. rewrite Nat2Z.inj_succ, Z.pow_succ_r in Hn by lia.
    pose proof (Z.div_mod n 10 ltac:(lia)). pose proof (Z.mod_pos_bound n 10 ltac:(lia)).
    assert (fuel <> O) by (intros ->; cbn in Hn; lia).
    rewrite IH by lia. cbn [app scan_digits]. unfold is_digit. rewrite (proj2 (Z.leb_le 48 (48 + n mod 10))) by lia. rewrite (proj2 (Z.leb_le (48 + n mod 10) 57)) by lia. cbn [andb]. f_equal. lia.
Qed.
Lemma digits_all fuel : forall n c, 0 <= n -> In c (digits fuel n) -> 48 <= c <= 57.
Proof.
  induction fuel as [|fuel IH]; intros n c Hn; [intros []|]. cbn [digits]. destruct (Z.ltb_spec n 10) as [H|H].
  - intros [<-|[]]. lia.
  - intros I. apply in_app_or in I as [I|[<-|[]]]; [eapply IH; [|exact I]; apply Z.div_pos; lia|]. pose proof (Z.mod_pos_bound n 10 ltac:(lia)). lia.
Qed.
Lemma digits_nonempty fuel n : (1 <= fuel)%nat -> digits fuel n <> [].
Proof. destruct fuel; [lia|]. intros _. cbn [digits]. destruct (n <? 10); [discriminate|]. intros E. apply app_eq_nil in E as [_ E]. discriminate. Qed.

Lemma show_nat_fuel n : 0 <= n -> 0 <= n < 2 ^ Z.of_nat (S (Z.to_nat (Z.log2 n))).
Proof. intros H. rewrite Nat2Z.inj_succ, Z2Nat.id by apply Z.log2_nonneg. destruct (Z.eq_dec n 0) as [->|NE]; [cbn; lia|]. pose proof (Z.log2_spec n ltac:(lia)). lia. Qed.
Lemma show_int_chars n c : 0 <= n -> In c (show_int n) -> 48 <= c <= 57.
Proof. intros H I. unfold show_int in I. rewrite (proj2 (Z.ltb_ge n 0)) in I by lia. eapply digits_all; [exact H|exact I]. Qed.
Lemma show_int_head n : 0 <= n -> exists c l, show_int n = c :: l /\ 48 <= c <= 57.
Proof.
  intros H. destruct (show_int n) as [|c l] eqn:E.
  - unfold show_int in E. rewrite (proj2 (Z.ltb_ge n 0)) in E by lia. unfold show_nat in E. apply digits_nonempty in E; [contradiction|lia].
  - exists c, l. split; [reflexivity|]. apply (show_int_chars n c H). rewrite E. left. reflexivity.
Qed.
Lemma scan_ends acc rest : ends rest -> scan_digits acc rest = (acc, rest).
Proof.
  destruct rest as [|c rest]; [reflexivity|]. cbn. intros H. unfold is_space in H. unfold is_digit. destruct (Z.leb_spec 48 c), (Z.leb_spec c 57); cbn; try reflexivity.
  exfalso. apply orb_prop in H as [H|H]; [apply Z.eqb_eq in H; lia|]. apply andb_prop in H as [_ H]. apply Z.leb_le in H. lia.
Qed.
Lemma scan_show n rest : 0 <= n <= int_max -> ends rest -> scan_int (show_int n ++ rest) = (n, true, rest).
Proof.
  intros Hn E. destruct (show_int_head n ltac:(lia)) as (c & l & EH & HC). unfold scan_int. rewrite EH. cbn [app].
  destruct (Z.eqb_spec c 45); [lia|]. destruct (Z.eqb_spec c 43); [lia|]. assert (is_digit c = true) as D. { unfold is_digit. apply andb_true_intro. split; apply Z.leb_le; lia. } rewrite D.
  assert (scan_digits 0 ((c :: l) ++ rest) = (n, rest)) as S.
  { rewrite <- EH. unfold show_int. rewrite (proj2 (Z.ltb_ge n 0)) by lia. unfold show_nat. rewrite digits_scan; [apply scan_ends, E|lia|apply show_nat_fuel; lia]. }
  cbn [app] in S. rewrite S. unfold int_min, int_max in *. destruct (Z.ltb_spec n (-2147483648)); [lia|]. destruct (Z.ltb_spec 2147483647 n); [lia|]. reflexivity.
Qed.

Lemma digit_not_space c : 48 <= c <= 57 -> is_space c = false.
Proof. intros H. unfold is_space. destruct (Z.eqb_spec c 32); [lia|]. destruct (Z.leb_spec c 13); [lia|]. cbn. apply andb_false_r. Qed.

(** Reading the next item after one blank. *)
Lemma ss_get_blank {A} scan (old : option A) w rest v : (exists c l, w = c :: l /\ is_space c = false) -> scan (w ++ rest) = (v, true, rest) ->
  ss_get scan old (mkSS (32 :: w ++ rest) true) = (Some v, mkSS rest true).
Proof. intros (c & l & -> & NS) E. unfold ss_get. cbn [ss_ok ss_rest skip_ws app]. change (is_space 32) with true. cbv iota. rewrite NS. cbn [app] in E. rewrite E. reflexivity. Qed.
Lemma ss_int n rest old : 0 <= n <= int_max -> ends rest -> ss_get scan_int old (mkSS (32 :: show_int n ++ rest) true) = (Some n, mkSS rest true).
Proof. intros Hn E. apply ss_get_blank; [|apply scan_show; assumption]. destruct (show_int_head n ltac:(lia)) as (c & l & EH & HC). exists c, l. split; [exact EH|apply digit_not_space, HC]. Qed.

Lemma lines_cons l r : ~ In 10 l -> lines (l ++ 10 :: r) = l :: lines r.
Proof.
  induction l as [|c l IH]; intros H; cbn [app lines].
  - destruct (lines r) eqn:E; [|reflexivity]. destruct r as [|x r']; cbn in E; [discriminate|]. destruct (lines r'); [discriminate|]. destruct (x =? 10); discriminate.
  - rewrite IH by (intros I; apply H; right; exact I). destruct (Z.eqb_spec c 10) as [->|NE]; [exfalso; apply H; left; reflexivity|reflexivity].
Qed.
Lemma lines_last l : ~ In 10 l -> lines l = [l].
Proof.
  induction l as [|c l IH]; intros H; cbn [lines]; [reflexivity|]. rewrite IH by (intros I; apply H; right; exact I).
  destruct (Z.eqb_spec c 10) as [->|NE]; [exfalso; apply H; left; reflexivity|reflexivity].
Qed.
Definition ended (ls : list (list Z)) : list Z := flat_map (fun l => l ++ endl) ls.
Lemma lines_ended ls tail : (forall l, In l ls -> ~ In 10 l) -> ~ In 10 tail -> lines (ended ls ++ tail) = ls ++ [tail].
Proof.
  induction ls as [|l ls IH]; intros H HT; cbn [ended flat_map app]; [apply lines_last, HT|].
  unfold endl. rewrite <- !app_assoc. cbn [app]. rewrite lines_cons by (apply H; left; reflexivity). f_equal. apply IH; [intros x I; apply H; right; exact I|exact HT].
Qed.
