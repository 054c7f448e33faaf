(** Surfaces that can be evaluated can be written. *)
From Coq Require Import ZArith List Bool Lia Reals.
From Verif Require Import Base Num MGeometry MNurbs MNurbsSurface MText MStep SNurbs SSurface SStep LBase LMesh LStep2.
Import ListNotations.
Open Scope Z_scope.

Lemma svalid_full (s : NurbsSurface R) : svalid s -> full s.
Proof. intros (P & W & (A & B & _) & (C & D & _) & _). unfold full. lia. Qed.
Lemma clamped_vget k p n a i : clamped k p n -> (forall j, 0 <= j -> a <= j < a + p + 1 -> kn k j = kn k a) -> 0 <= a -> a + p + 1 <= vsize k -> a <= i < a + p + 1 -> vget k i = vget k a.
Proof.
  intros _ H A B I. assert (forall j, 0 <= j < vsize k -> vget k j = Ok (kn k j)) as V. { intros j J. destruct (vget_in_range k j J) as [x E]. rewrite E. f_equal. unfold kn. apply vget_Ok in E as [_ E]. symmetry. apply nth_error_nth. exact E. }
  rewrite !V by lia. f_equal. apply H; lia.
Qed.
Lemma clamped_clamped_ends k p n : clamped k p n -> clamped_ends p k.
Proof.
  intros C. pose proof C as (A & B & _ & H0 & H1). split.
  - intros i I. transitivity (vget k 0); [|symmetry]; apply (clamped_vget k p n); try exact C; try lia; intros j _ J; rewrite !H0 by lia; reflexivity.
  - intros i I. apply (clamped_vget k p n); try exact C; try lia. intros j _ J. rewrite !H1 by lia. reflexivity.
Qed.
Lemma step_file_valid {X : Text R} (xs : list (list (NurbsSurface R))) : no_hash -> Forall (Forall svalid) xs -> exists t, step_file xs = Ok t /\ well_formed t /\
  forall n, In n (concat xs) -> exists pre post mu mv ku kv, t = pre ++ mult_text mu mv ku kv ++ post /\
    list_sum mu = length (ns_knotsU n) /\ list_sum mv = length (ns_knotsV n) /\ expand mu ku = ns_knotsU n /\ expand mv kv = ns_knotsV n.
Proof.
  intros NH V. assert (Forall (Forall full) xs) as F. { eapply Forall_impl; [|exact V]. intros l. apply Forall_impl. exact svalid_full. }
  destruct (step_file_ok xs NH F) as (t & E & W). exists t. split; [exact E|]. split; [exact W|]. intros n I. destruct (step_file_mults xs n NH F I) as (t' & pre & post & mu & mv & ku & kv & E' & Et & S1 & S2 & _ & _ & X1 & X2).
  assert (t' = t) as -> by congruence. exists pre, post, mu, mv, ku, kv.
  assert (svalid n) as (_ & _ & CU & CV & _). { apply in_concat in I as (x & Ix & In_). rewrite Forall_forall in V. specialize (V x Ix). rewrite Forall_forall in V. apply V, In_. }
  repeat split; try assumption; [apply X1|apply X2]; eapply clamped_clamped_ends; eassumption.
Qed.
