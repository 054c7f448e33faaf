(** The half-edge kernel as a store of vertices; printed integers and words of doubles that are not finite. *)
From Coq Require Import String ZArith List Bool Lia.
From Flocq Require Import IEEE754.Binary IEEE754.Bits.
From Verif Require Import Base Num MGeometry MKernel MKernelRun MText MF64 MFormat SKernel SObj LBase LText.
Import ListNotations.
Open Scope string_scope. Open Scope list_scope. Open Scope Z_scope.

Section K.
Context {T : Type}.
Lemma range_pos i n : 0 <= i -> in_range i n = (i <? n).
Proof. intros H. unfold in_range. destruct (Z.leb_spec 0 i); [reflexivity|lia]. Qed.
Lemma vertex_traces (cs : list (kcall T)) : Forall vertex_call cs -> forall k q, kverts k = khverts q -> trace he_call q cs = trace lt_call k cs.
Proof.
  induction cs as [|c cs IH]; intros F k q E; [reflexivity|]. inversion F as [|? ? C F']; subst. cbn [trace].
  destruct c; cbn [vertex_call] in C; try contradiction; cbn [he_call lt_call].
  - unfold kh_add_vertex, k_add_vertex. rewrite E. rewrite (IH F' (mkK (vpush (khverts q) p) (ktris k)) (mkKH (vpush (khverts q) p) (khtris q) (khedges q)) eq_refl). reflexivity.
  - unfold kh_set_vertex, k_set_vertex, kh_nbv, k_nbv. rewrite E, range_pos by exact C. destruct (massert _) as [u|f]; [|reflexivity]. cbn [bind]. destruct (vset _ _ _) as [v|f]; [|reflexivity]. cbn [bind rmap].
    rewrite (IH F' (mkK v (ktris k)) (mkKH v (khtris q) (khedges q)) eq_refl). reflexivity.
  - unfold kh_get_vertex, k_get_vertex, kh_nbv, k_nbv. rewrite E, range_pos by exact C. destruct (massert _) as [u|f]; [|reflexivity]. cbn [bind]. destruct (vget _ _) as [v|f]; [|reflexivity]. cbn [bind rmap]. rewrite (IH F' k q E). reflexivity.
  - unfold kh_nbv, k_nbv. rewrite E, (IH F' k q E). reflexivity.
  - rewrite (IH F' k_empty kh_empty eq_refl). reflexivity.
Qed.
Lemma he_vertices (cs : list (kcall T)) : Forall vertex_call cs -> trace he_call kh_empty cs = trace lt_call k_empty cs.
Proof. intros F. apply vertex_traces; [exact F|reflexivity]. Qed.
Lemma he_negative (k : KernelHE T) i p : i < 0 -> he_call k (KGetVertex i) = Err FOob /\ he_call k (KSetVertex i p) = Err FOob /\
  forall q : Kernel T, lt_call q (KGetVertex i) = Err FAssert /\ lt_call q (KSetVertex i p) = Err FAssert.
Proof.
  intros H. assert (0 <= kh_nbv k) as L by apply vsize_nonneg. cbn [he_call lt_call]. unfold kh_get_vertex, kh_set_vertex, massert. destruct (Z.ltb_spec i (kh_nbv k)); [|lia].
  cbn [bind]. unfold vget, vset. rewrite (proj2 (Z.ltb_lt i 0) H). split; [reflexivity|]. split; [reflexivity|].
  intros q. unfold k_get_vertex, k_set_vertex, massert, in_range. destruct (Z.leb_spec 0 i); [lia|]. split; reflexivity.
Qed.
End K.

Lemma int_trip n rest : int_min <= n <= int_max -> ends rest -> scan_int (show_int n ++ rest) = (n, true, rest).
Proof.
  intros Hn E. destruct (Z_lt_le_dec n 0) as [H|H]; [|apply scan_show; [lia|exact E]].
  pose proof (show_int_head (- n) ltac:(lia)) as (c & l & EH & HC). unfold show_int in EH. rewrite (proj2 (Z.ltb_ge (- n) 0)) in EH by lia.
  unfold scan_int, show_int. rewrite (proj2 (Z.ltb_lt n 0)) by lia. cbn [app]. rewrite Z.eqb_refl.
  assert (scan_digits 0 (show_nat (- n) ++ rest) = (- n, rest)) as S by (unfold show_nat; rewrite digits_scan; [apply scan_ends, E|lia|apply show_nat_fuel; lia]).
  rewrite EH in S |- *. cbn [app] in S |- *. assert (is_digit c = true) as D by (unfold is_digit; apply andb_true_intro; split; apply Z.leb_le; lia). rewrite D, S, Z.opp_involutive.
  unfold int_min, int_max in *. destruct (Z.ltb_spec n (-2147483648)); [lia|]. destruct (Z.ltb_spec 2147483647 n); [lia|]. reflexivity.
Qed.

Lemma words_not_finite (x : f64) : is_finite 53 1024 x = false ->
  f_show x = (if Bsign 53 1024 x then str "-" else []) ++ (if is_nan 53 1024 x then str "nan" else str "inf").
Proof. destruct x as [s|s|s pl Hpl|s m e H]; intros F; try discriminate; cbn; destruct s; reflexivity. Qed.
