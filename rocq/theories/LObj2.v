(** OBJ files: loading what was written. *)
From Coq Require Import String Ascii ZArith List Bool Lia.
From Verif Require Import Base Num MGeometry MKernel MMesh MMeshRun MUtil MText MObj SMesh SReach SObj LBase LMesh LReach LGrid LStl LText LObj.
Import ListNotations.
Open Scope Z_scope.

Lemma Forall2_length {A B} (P : A -> B -> Prop) l l' : Forall2 P l l' -> length l = length l'.
Proof. induction 1; cbn; congruence. Qed.

Section Obj.
Context {T : Type} {N : Num T} {X : Text T}.

Lemma no_nl_show_int n : 0 <= n -> ~ In 10 (show_int n).
Proof. intros H I. apply show_int_chars in I; [lia|exact H]. Qed.
Lemma no_nl_app a b : ~ In 10 a -> ~ In 10 b -> ~ In 10 (a ++ b).
Proof. intros A B I. apply in_app_or in I. tauto. Qed.
Lemma no_nl_v (p : Point3 T) : one_line -> ~ In 10 (obj_v p).
Proof. intros O. unfold obj_v. repeat apply no_nl_app; try apply O; cbn; intuition discriminate. Qed.
Lemma no_nl_f k a b c : 0 <= a + k -> 0 <= b + k -> 0 <= c + k -> ~ In 10 (obj_f k (a, b, c)).
Proof. intros A B C. unfold obj_f. repeat apply no_nl_app; try (apply no_nl_show_int; lia); cbn; intuition discriminate. Qed.
Lemma no_nl_l k n : 0 <= k -> ~ In 10 (obj_l k n).
Proof.
  intros K. unfold obj_l. apply no_nl_app. { intros [H|[H|[]]]; discriminate. }
  intros I. apply in_flat_map in I as [i [_ I]]. revert I. apply no_nl_app; [apply no_nl_show_int; lia|]. intros [H|[]]; discriminate.
Qed.

(** The unterminated last line of the file: empty, or a polyline record. *)
Definition tail_ok (glued : bool) (tail : list Z) : Prop := ~ In 10 tail /\ if glued then exists r, tail = 108 :: 32 :: r else tail = [].
Lemma tail_line glued tail (m : Mesh T) : tail_ok glued tail -> obj_line m tail = Ok m.
Proof. intros [_ H]. destruct glued; [destruct H as [r ->]; apply line_l|rewrite H; apply line_nil]. Qed.

(** One item: the lines it adds, the first of which continues the last line of the file. *)
Lemma item_lines glued tail (vs : list (list Z)) (fs : list (list Z)) (m : Mesh T) : tail_ok glued tail ->
  exists ls, ended ls = tail ++ ended vs ++ endl ++ ended fs /\
    obj_lines m ls = (do m <- obj_lines m (if glued then tl vs else vs); obj_lines m fs) /\
    forall l, In l ls -> l = tail \/ In l fs \/ l = [] \/ In l vs \/ (exists v, In v vs /\ l = tail ++ v).
Proof.
  intros [H0 H]. destruct glued.
  - destruct H as [r E]. destruct vs as [|v vs].
    + exists (tail :: fs). split. { rewrite ended_cons. cbn [ended flat_map]. reflexivity. }
      split. { cbn [obj_lines tl bind]. rewrite E, line_l. reflexivity. }
      intros l [<-|I]; auto.
    + exists ((tail ++ v) :: vs ++ [] :: fs). split. { rewrite ended_cons, ended_app, ended_cons. cbn [app]. unfold ended at 3. cbn [flat_map]. fold (ended vs). rewrite <- !app_assoc. reflexivity. }
      split. { cbn [obj_lines tl]. rewrite E. cbn [app]. rewrite line_l. cbn [bind]. rewrite obj_lines_app. reflexivity. }
      intros l [<-|I]; [right; right; right; right; exists v; split; [left; reflexivity|reflexivity]|]. apply in_app_or in I as [I|[<-|I]]; auto. right; right; right; left. right. exact I.
  - subst tail. exists (vs ++ [] :: fs). split. { rewrite ended_app, ended_cons. reflexivity. }
    split. { rewrite obj_lines_app. reflexivity. }
    intros l I. apply in_app_or in I as [I|[<-|I]]; auto.
Qed.

Lemma reach_push_verts vs : forall m : Mesh T, reach m -> reach (push_verts m vs).
Proof. induction vs as [|p vs IH]; intros m R; [rewrite push_verts_nil; exact R|]. change (p :: vs) with ([p] ++ vs). rewrite <- push_verts_app, <- push_vert_verts. apply IH, reach_push_vert, R. Qed.
Lemma reach_push_tris ts : forall m : Mesh T, reach m -> (forall a b c, In (a, b, c) ts -> 0 <= a < nb_vertices m /\ 0 <= b < nb_vertices m /\ 0 <= c < nb_vertices m) -> reach (push_tris m ts).
Proof.
  induction ts as [|[[a b] c] ts IH]; intros m R H; [rewrite push_tris_nil; exact R|]. change ((a, b, c) :: ts) with ([(a, b, c)] ++ ts). rewrite <- push_tris_app, <- push_tri_tris.
  destruct (H a b c ltac:(left; reflexivity)) as (A & B & C). apply IH; [apply reach_push_tri; assumption|]. intros x y z I. apply (H x y z). right. exact I.
Qed.
Lemma abs_push_verts (m : Mesh T) vs : abs (push_verts m vs) = mkA (averts (abs m) ++ vs) (atris (abs m)) (acolor (abs m)).
Proof. reflexivity. Qed.

Definition loads_to (r : res (Mesh T)) (x : option (list (Point3 T) * list triple)) (c : Z) : Prop :=
  match x with
  | Some (V, F) => exists m, r = Ok m /\ reach m /\ abs m = mkA V (map (fun t => (t, true)) F) c
  | None => r = Err FAssert
  end.

Lemma total_nonneg (its : list (oitem T)) : 0 <= total its.
Proof. induction its as [|it its IH]; cbn [total fold_right]; [lia|]. fold (total its). unfold len. lia. Qed.

Lemma write_load (O : one_line) (D : div255) (m0 : Mesh T) xs : forall its w ls tail glued mk V F c,
  Forall2 item_shows xs its -> ow_text w = ended ls ++ tail -> (forall l, In l ls -> ~ In 10 l) -> tail_ok glued tail -> 0 <= ow_count w -> ow_count w + total its < int_max ->
  obj_lines m0 ls = Ok mk -> reach mk -> abs mk = mkA V (map (fun t => (t, true)) F) c ->
  exists w', ow_writes w xs = Ok w' /\ ow_count w' = ow_count w + total its /\ loads_to (obj_lines m0 (lines (ow_text w'))) (loaded glued (ow_count w) V F its) c.
Proof.
  induction xs as [|x xs IH]; intros its w ls tail glued mk V F c FA ET NL TO C0 CT EL R A; inversion FA; subst.
  - exists w. split; [reflexivity|]. split; [cbn; lia|]. cbn [loaded loads_to]. exists mk. split; [|split; assumption].
    rewrite ET, lines_ended; [|exact NL|apply TO]. rewrite obj_lines_app, EL. cbn [bind obj_lines]. rewrite (tail_line glued) by exact TO. reflexivity.
  - rename y into it, l' into its. cbn [total fold_right] in CT. fold (total its) in CT. pose proof (total_nonneg its) as TN. assert (0 <= len (oi_pts it)) as LN by (unfold len; lia).
    assert (exists w1 vl fl (tail1 : list Z), ow_write w x = Ok w1 /\ ow_text w1 = (ow_text w ++ ended vl ++ endl ++ ended fl) ++ tail1 /\ ow_count w1 = ow_count w + len (oi_pts it) /\
      (forall l, In l vl \/ In l fl -> ~ In 10 l) /\ tail_ok (oi_line it) tail1 /\
      (forall m : Mesh T, obj_lines m vl = Ok (push_verts m (oi_pts it))) /\ (forall m : Mesh T, obj_lines m (tl vl) = Ok (push_verts m (tl (oi_pts it)))) /\
      (forall a b c, In (a, b, c) (oi_tris it) -> 0 <= a /\ 0 <= b /\ 0 <= c) /\
      (forall m : Mesh T, obj_lines m fl = if forallb (below (nb_vertices m)) (map (shift (ow_count w)) (oi_tris it)) then Ok (push_tris m (map (shift (ow_count w)) (oi_tris it))) else Err FAssert)) as
      (w1 & vl & fl & tail1 & EW & ET1 & EC & NL1 & TO1 & LV & LT & TP & LF).
    { destruct x as [m|l]; cbn [item_shows] in H1.
      - destruct H1 as (a & Rm & Sm & RV & EQ & NLn). assert (a = abs m) as -> by (apply (shows_unique m); [exact Sm|apply shows_abs]). pose proof (reach_wf m Rm) as W.
        destruct (write_mesh_ok w m W D O) as (extra & EX & NX & E). assert (len (oi_pts it) = nb_vertices m) as LP. { unfold len. rewrite <- (Forall2_length _ _ _ RV). rewrite <- abs_nbv. reflexivity. }
        assert (forall a b c, In (a, b, c) (live (abs m)) -> 0 <= a < nb_vertices m /\ 0 <= b < nb_vertices m /\ 0 <= c < nb_vertices m) as LI by (intros a b e I; apply (live_in m a b e W I)).
        eexists _, _, _, []. split; [exact E|]. cbn [ow_text ow_count]. split; [rewrite app_nil_r; reflexivity|]. split; [lia|]. split.
        { intros l [I|I]; apply in_map_iff in I as [y [<- I]]; [apply no_nl_app; [apply no_nl_v, O|exact NX]|]. destruct y as [[a b] d]. destruct (LI _ _ _ I) as (? & ? & ?). apply no_nl_f; lia. }
        split. { rewrite NLn. split; [intros []|reflexivity]. }
        split. { intros m1. apply lines_v; assumption. }
        split. { intros m1. destruct RV as [|p q vs qs RP RV]; cbn [map tl]; [rewrite push_verts_nil; reflexivity|]. apply lines_v; assumption. }
        rewrite EQ. split. { intros a b d I. destruct (LI _ _ _ I) as (? & ? & ?). lia. }
        intros m1. apply lines_f. intros a b d I. destruct (LI _ _ _ I) as (? & ? & ?). lia.
      - destruct H1 as (RV & EQ & NLn). pose proof (write_line_ok w l) as E.
        eexists _, _, [], _. split; [exact E|]. cbn [ow_text ow_count]. split; [cbn [ended flat_map app]; rewrite <- !app_assoc; reflexivity|]. split; [unfold vsize, len; rewrite (Forall2_length _ _ _ RV); reflexivity|]. split.
        { intros l0 [I|[]]. apply in_map_iff in I as [y [<- I]]. apply no_nl_v, O. }
        split. { rewrite NLn. split; [apply no_nl_l; lia|]. eexists. unfold obj_l. cbn [str app]. reflexivity. }
        pose proof (fun m1 => lines_v [] l (oi_pts it) RV I m1) as LV. rewrite (map_ext _ obj_v) in LV by (intros; apply app_nil_r).
        split; [exact LV|]. split. { intros m1. destruct RV as [|p q vs qs RP RV]; cbn [map tl]; [rewrite push_verts_nil; reflexivity|]. pose proof (lines_v [] vs qs RV I m1) as LV'. rewrite (map_ext _ obj_v) in LV' by (intros; apply app_nil_r). exact LV'. }
        rewrite EQ. split; [intros a b d []|]. intros m1. cbn [map forallb]. rewrite push_tris_nil. reflexivity. }
    cbn [ow_writes]. rewrite EW. cbn [bind loaded].
    destruct (item_lines glued tail vl fl mk TO) as (nls & EN & EO & IN).
    set (V' := V ++ (if glued then tl (oi_pts it) else oi_pts it)). set (ts := map (shift (ow_count w)) (oi_tris it)) in *.
    set (m1 := push_verts mk (if glued then tl (oi_pts it) else oi_pts it)).
    assert (abs m1 = mkA V' (map (fun t => (t, true)) F) c) as A1. { unfold m1. rewrite abs_push_verts, A. reflexivity. }
    assert (reach m1) as R1 by (apply reach_push_verts, R).
    assert (nb_vertices m1 = len V') as NV by (rewrite <- abs_nbv, A1; reflexivity).
    assert (obj_lines m0 (ls ++ nls) = if forallb (below (len V')) ts then Ok (push_tris m1 ts) else Err FAssert) as EL1.
    { rewrite obj_lines_app, EL. cbn [bind]. rewrite EO. assert (obj_lines mk (if glued then tl vl else vl) = Ok m1) as -> by (unfold m1; destruct glued; [apply LT|apply LV]). cbn [bind]. rewrite LF, NV. reflexivity. }
    assert (ow_text w1 = ended (ls ++ nls) ++ tail1) as ET2. { rewrite ET1, ET, ended_app, EN. rewrite <- !app_assoc. reflexivity. }
    assert (forall l, In l (ls ++ nls) -> ~ In 10 l) as NL2.
    { intros l I. apply in_app_or in I as [I|I]; [apply NL, I|]. destruct (IN l I) as [->|[J|[->|[J|(v & J & ->)]]]]; [apply TO|apply NL1; right; exact J|intros []|apply NL1; left; exact J|]. apply no_nl_app; [apply TO|apply NL1; left; exact J]. }
    destruct (forallb (below (len V')) ts) eqn:FB.
    + destruct (IH its w1 (ls ++ nls) tail1 (oi_line it) (push_tris m1 ts) V' (F ++ ts) c H3 ET2 NL2 TO1) as (w' & EW' & CW & LD); [lia|lia|exact EL1| | |].
      * apply reach_push_tris; [exact R1|]. intros a b d I. rewrite NV. rewrite forallb_forall in FB. pose proof (FB _ I) as B. cbn [below] in B. apply andb_prop in B as [B B3]. apply andb_prop in B as [B1 B2]. apply Z.ltb_lt in B1, B2, B3.
        unfold ts in I. apply in_map_iff in I as [[[x1 x2] x3] [Eq I]]. cbn [shift] in Eq. injection Eq as <- <- <-. destruct (TP _ _ _ I) as (? & ? & ?). lia.
      * rewrite abs_push_tris. unfold with_tris. rewrite A1. cbn [averts atris acolor]. rewrite map_app. reflexivity.
      * exists w'. split; [exact EW'|]. rewrite EC in LD. split; [cbn [total fold_right]; fold (total its); lia|exact LD].
    + assert (forall xs its w, Forall2 item_shows xs its -> (0 <= ow_count w) -> exists w' sfx, ow_writes w xs = Ok w' /\ ow_count w' = ow_count w + total its /\ ow_text w' = ow_text w ++ sfx) as EXT. 2: {
      destruct (EXT xs its w1 H3 ltac:(unfold len in EC; lia)) as (w' & sfx & EW' & CW & SX). exists w'. split; [exact EW'|]. split; [cbn [total fold_right]; fold (total its); lia|]. cbn [loads_to].
      rewrite SX, ET2. rewrite <- app_assoc. assert (forall q, lines (ended (ls ++ nls) ++ q) = (ls ++ nls) ++ lines q) as LQ.
      { clear - NL2. induction (ls ++ nls) as [|l l0 IH0]; intros q; [reflexivity|]. rewrite ended_cons. unfold endl. rewrite <- !app_assoc. cbn [app]. rewrite lines_cons by (apply NL2; left; reflexivity). f_equal. apply IH0. intros x I. apply NL2. right. exact I. }
      rewrite LQ, obj_lines_app, EL1. reflexivity. }
      clear - D O. induction xs as [|x xs IH]; intros its w FA C0; inversion FA; subst.
      * exists w, []. split; [reflexivity|]. split; [cbn; lia|]. rewrite app_nil_r. reflexivity.
      * cbn [ow_writes total fold_right]. fold (total l'). destruct x as [m|l]; cbn [item_shows] in H1; cbn [ow_write].
        -- destruct H1 as (a & Rm & Sm & RV & EQ & NLn). assert (a = abs m) as -> by (apply (shows_unique m); [exact Sm|apply shows_abs]). destruct (write_mesh_ok w m (reach_wf m Rm) D O) as (extra & EX & NX & E).
           rewrite E. cbn [bind]. match goal with |- context [ow_writes ?w1 xs] => destruct (IH l' w1 H3) as (w' & sfx & EW & CW & SX) end. { cbn. unfold nb_vertices, k_nbv, vsize. lia. }
           exists w'. eexists. split; [exact EW|]. cbn [ow_count ow_text] in *. split. { rewrite CW. rewrite <- abs_nbv. unfold len. rewrite (Forall2_length _ _ _ RV). lia. } rewrite SX, <- app_assoc. reflexivity.
        -- destruct H1 as (RV & EQ & NLn). rewrite (write_line_ok w l). cbn [bind]. match goal with |- context [ow_writes ?w1 xs] => destruct (IH l' w1 H3) as (w' & sfx & EW & CW & SX) end. { cbn. unfold vsize. lia. }
           exists w'. eexists. split; [exact EW|]. cbn [ow_count ow_text] in *. split. { rewrite CW. unfold vsize, len. rewrite (Forall2_length _ _ _ RV). lia. } rewrite SX, <- app_assoc. reflexivity.
Qed.

(** The whole file. *)
Theorem obj_any_history (xs : list obj_item) its (m0 : Mesh T) : one_line -> div255 -> Forall2 item_shows xs its -> total its < int_max -> reach m0 ->
  exists w, ow_writes ow_open xs = Ok w /\
    match loaded false 0 [] [] its with
    | Some (V, F) => exists m, obj_load (ow_text w) m0 = Ok (true, m) /\ reach m /\ shows m (mkA V (map (fun t => (t, true)) F) (get_color m0))
    | None => obj_load (ow_text w) m0 = Err FAssert
    end.
Proof.
  intros O D FA CT R0. destruct (write_load O D (clear m0) xs its ow_open [] [] false (clear m0) [] [] (get_color m0) FA) as (w & EW & _ & L); [reflexivity|intros l []|split; [intros []|reflexivity]|cbn; lia|exact CT|reflexivity|apply reach_clear, R0|reflexivity|].
  - exists w. split; [exact EW|]. unfold loads_to in L. cbn [ow_count ow_open] in L. unfold obj_load. destruct (loaded false 0 [] [] its) as [[V F]|]; [|rewrite L; reflexivity].
    destruct L as (m & E & R & A). exists m. rewrite E. split; [reflexivity|]. split; [exact R|]. rewrite <- A. apply shows_abs.
Qed.

(** Only meshes: nothing is lost. *)
Lemma loaded_meshes (its : list (oitem T)) : forall V F, (forall it, In it its -> oi_line it = false /\ forall a b c, In (a, b, c) (oi_tris it) -> 0 <= a < len (oi_pts it) /\ 0 <= b < len (oi_pts it) /\ 0 <= c < len (oi_pts it)) ->
  loaded false (len V) V F its = Some (V ++ flat_map oi_pts its, F ++ joined_tris (len V) its).
Proof.
  induction its as [|it its IH]; intros V F H; cbn [loaded flat_map joined_tris]; [rewrite !app_nil_r; reflexivity|].
  destruct (H it ltac:(left; reflexivity)) as [E B]. assert (len (V ++ oi_pts it) = len V + len (oi_pts it)) as LV by (unfold len; rewrite app_length; lia).
  assert (forallb (below (len (V ++ oi_pts it))) (map (shift (len V)) (oi_tris it)) = true) as ->.
  { apply forallb_forall. intros t I. apply in_map_iff in I as [[[a b] c] [<- I]]. destruct (B _ _ _ I) as (? & ? & ?). cbn [shift below]. rewrite !andb_true_iff, !Z.ltb_lt. lia. }
  rewrite E. rewrite <- LV. rewrite IH by (intros it' I; apply H; right; exact I). rewrite LV, <- !app_assoc. reflexivity.
Qed.
Lemma item_mesh (m : Mesh T) it : item_shows (WMesh m) it -> oi_line it = false /\ forall a b c, In (a, b, c) (oi_tris it) -> 0 <= a < len (oi_pts it) /\ 0 <= b < len (oi_pts it) /\ 0 <= c < len (oi_pts it).
Proof.
  intros (a & Rm & Sm & RV & EQ & NLn). split; [exact NLn|]. assert (a = abs m) as -> by (apply (shows_unique m); [exact Sm|apply shows_abs]). rewrite EQ. unfold len. rewrite <- (Forall2_length _ _ _ RV). change (Z.of_nat (length (averts (abs m)))) with (len (averts (abs m))). rewrite abs_nbv.
  intros x y z I. apply (live_in m x y z (reach_wf m Rm) I).
Qed.
Theorem obj_meshes (ms : list (Mesh T)) its (m0 : Mesh T) : one_line -> div255 -> Forall2 item_shows (map WMesh ms) its -> total its < int_max -> reach m0 ->
  exists w m, ow_writes ow_open (map WMesh ms) = Ok w /\ obj_load (ow_text w) m0 = Ok (true, m) /\ reach m /\ shows m (joined its (get_color m0)).
Proof.
  intros O D FA CT R0. destruct (obj_any_history _ _ _ O D FA CT R0) as (w & EW & L). pose proof (loaded_meshes its [] []) as LM. change (len (@nil (Point3 T))) with 0 in LM. rewrite LM in L.
  - destruct L as (m & E & R & S). exists w, m. auto.
  - intros it I. clear - FA I. apply In_nth_error in I as [n I]. assert (exists m, nth_error ms n = Some m /\ item_shows (WMesh m) it) as (m & _ & H).
    { revert ms its FA I. induction n as [|n IH]; intros ms its FA I; destruct its as [|i0 its]; try discriminate; inversion FA as [|x0 y0 l0 l1 H0 H1]; subst; destruct ms as [|m ms]; try discriminate; cbn in *.
      - injection H as -> ->. injection I as ->. exists m. auto.
      - injection H as -> ->. apply IH with (its := its); assumption. }
    apply item_mesh with m, H.
Qed.
End Obj.
