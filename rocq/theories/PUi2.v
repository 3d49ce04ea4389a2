(** Properties of dragging, styles, labels and the side view (C132-C135). *)
From Coq Require Import Reals Lra Lia List Arith String ZArith Bool.
From Verif Require Import RVec Trig MPca MAxes MFront MUi SpecUi LAngles.
Import ListNotations.
Open Scope R_scope.
Notation length := List.length.

(** * C132: dragging the stereonet *)
Lemma int_part_bounds : forall x, IZR (Int_part x) <= x < IZR (Int_part x) + 1.
Proof. intros x. destruct (base_Int_part x). lra. Qed.
Lemma int_part_small : forall x, 0 <= x < 1 -> Int_part x = 0%Z.
Proof.
  intros x H. destruct (int_part_bounds x) as [A B].
  assert (C : IZR (Int_part x) < 1) by lra. assert (D : -1 < IZR (Int_part x)) by lra.
  apply lt_IZR in C. apply lt_IZR in D. lia.
Qed.
Lemma mod_small : forall x, -360 < x < 360 -> js_mod360 x = x.
Proof.
  intros x H. unfold js_mod360. destruct (Rlt_dec x 0).
  - rewrite int_part_small by lra. lra.
  - rewrite int_part_small by lra. lra.
Qed.
Lemma mod_turns : forall x, exists k, js_mod360 x = x + IZR k * 360.
Proof.
  intros x. unfold js_mod360. destruct (Rlt_dec x 0).
  - exists (Int_part (- x / 360)). lra.
  - exists (- Int_part (x / 360))%Z. rewrite opp_IZR. lra.
Qed.
Lemma mod_range : forall x, -360 < js_mod360 x < 360.
Proof.
  intros x. unfold js_mod360. destruct (Rlt_dec x 0).
  - destruct (int_part_bounds (- x / 360)). split; [lra|]. lra.
  - destruct (int_part_bounds (x / 360)). split; lra.
Qed.

(** The position last seen after the button went down *)
Definition at_point (e : event) : R * R := match e with Down p | Move p | Up p => p end.
Definition is_down (e : event) : Prop := match e with Down _ => True | _ => False end.
Definition is_move (e : event) : Prop := match e with Move _ => True | _ => False end.

Lemma drag_keeps : forall es s, Forall is_move es -> dr_m0 (drag_run s es) = dr_m0 s /\ dr_o0 (drag_run s es) = dr_o0 s.
Proof.
  unfold drag_run. induction es as [|e es IH]; intros s H; cbn [fold_left]; auto. inversion H as [|? ? He Hes]; subst.
  destruct (IH (drag_step s e) Hes) as [A B]. rewrite A, B. destruct e; try contradiction.
  cbn [drag_step]. unfold drag_to. destruct (dr_m0 s) eqn:E; [|now rewrite E]. destruct (dr_o0 s) as [[l f] c] eqn:F. simpl. auto.
Qed.

(** While the button is down, the rotation depends only on where it went down, the
    rotation then, and where the pointer is: a third of a degree per pixel, the second
    angle kept within 90 degrees, the first up to whole turns, the third dropped.  The
    release counts as a last movement. *)
Theorem C132_drag : forall s p0 moves last l f c, dr_rot s = (l, f, c) -> Forall is_move moves -> ~ is_down last ->
  let '(l', f', c') := dr_rot (drag_run s (Down p0 :: moves ++ [last])) in
  (exists k, l' = l + (fst (at_point last) - fst p0) / 3 + IZR k * 360) /\ -360 < l' < 360 /\
  clamped (-90) 90 (f + (snd p0 - snd (at_point last)) / 3) f' /\ c' = 0.
Proof.
  intros s p0 moves last l f c R M D. unfold drag_run. cbn [fold_left]. rewrite fold_left_app. cbn [fold_left].
  set (s1 := drag_step s (Down p0)). fold (drag_run s1 moves).
  destruct (drag_keeps moves s1 M) as [A B]. set (s2 := drag_run s1 moves) in *.
  assert (M0 : dr_m0 s2 = Some p0) by (rewrite A; reflexivity).
  assert (O0 : dr_o0 s2 = (l, f, c)) by (rewrite B; simpl; exact R).
  assert (E : dr_rot (drag_step s2 last) = dr_rot (drag_to s2 (at_point last))).
  { destruct last as [p|p|p]; [exfalso; apply D; exact I|reflexivity|]. simpl. now rewrite M0. }
  rewrite E. unfold drag_to. rewrite M0, O0. cbn [dr_rot].
  set (y := f + (snd p0 - snd (at_point last)) / 3).
  set (z := if Rlt_dec 90 y then 90 else if Rlt_dec y (- (90)) then - (90) else y).
  assert (Z : -90 <= z <= 90) by (unfold z; destruct (Rlt_dec 90 y); [lra|]; destruct (Rlt_dec y (- (90))); lra).
  split. { destruct (mod_turns (l + (fst (at_point last) - fst p0) / 3)) as [k K]. exists k. exact K. }
  split; [apply mod_range|]. split; [|reflexivity]. rewrite mod_small by lra. unfold clamped, z.
  destruct (Rlt_dec 90 y); [repeat split; lra|]. destruct (Rlt_dec y (- (90))); repeat split; lra.
Qed.
(** Without the button down, moving does nothing. *)
Theorem C132_idle : forall es s, dr_m0 s = None -> Forall (fun e => ~ is_down e) es -> drag_run s es = s.
Proof.
  unfold drag_run. induction es as [|e es IH]; intros s H F; cbn [fold_left]; auto. inversion F as [|? ? He Hes]; subst.
  assert (E : drag_step s e = s).
  { destruct e; [exfalso; apply He; exact I| |]; simpl; unfold drag_to; now rewrite H. }
  rewrite E. now apply IH.
Qed.
(** The button is up after a release, whatever came before. *)
Theorem C132_released : forall s es p, dr_m0 (drag_run s (es ++ [Up p])) = None.
Proof.
  intros s es p. unfold drag_run. rewrite fold_left_app. cbn [fold_left drag_step].
  destruct (dr_m0 (fold_left drag_step es s)) eqn:E; [reflexivity|exact E].
Qed.
(** The second angle never leaves [-90, 90]. *)
Theorem C132_latitude : forall es s, -90 <= snd (fst (dr_rot s)) <= 90 -> -90 <= snd (fst (dr_rot (drag_run s es))) <= 90.
Proof.
  unfold drag_run. induction es as [|e es IH]; intros s H; cbn [fold_left]; auto. apply IH.
  assert (T : forall p, -90 <= snd (fst (dr_rot (drag_to s p))) <= 90).
  { intros p. unfold drag_to. destruct (dr_m0 s) as [m0|]; [|exact H]. destruct (dr_o0 s) as [[l f] c]. cbn [dr_rot fst snd].
    set (y := f + _). destruct (Rlt_dec 90 y); [rewrite mod_small; lra|]. destruct (Rlt_dec y (- (90))); rewrite mod_small; lra. }
  destruct e as [p|p|p]; cbn [drag_step dr_rot]; auto. destruct (dr_m0 s); [cbn [dr_rot]; apply T|exact H].
Qed.
Example C132_ex : dr_rot (drag_run (mkDrag (350, 0, 7) None (0, 0, 0)) [Down (0, 0); Move (5, 5); Up (60, -600)]) = (10, 90, 0).
Proof.
  unfold drag_run. simpl. unfold drag_to. simpl.
  destruct (Rlt_dec 90 (0 + (0 - -600) / 3)); [|lra]. apply (f_equal2 pair); [|reflexivity].
  rewrite (mod_small 90) by lra. apply (f_equal2 pair); [|reflexivity].
  unfold js_mod360. destruct (Rlt_dec _ _); [lra|].
  assert (E : Int_part ((350 + (60 - 0) / 3) / 360) = 1%Z).
  { destruct (int_part_bounds ((350 + (60 - 0) / 3) / 360)) as [A B].
    assert (C : IZR (Int_part ((350 + (60 - 0) / 3) / 360)) < 2) by lra.
    assert (D : 0 < IZR (Int_part ((350 + (60 - 0) / 3) / 360))) by lra.
    apply lt_IZR in C. apply lt_IZR in D. lia. }
  rewrite E. lra.
Qed.

(** * C133: opacities *)
Lemma pow0_mono : forall k x y, 0 < k -> 0 <= x -> x <= y -> pow0 k x <= pow0 k y.
Proof.
  intros k x y K X XY. unfold pow0. destruct (Req_EM_T x 0), (Req_EM_T y 0).
  - lra.
  - left. apply exp_pos.
  - subst. lra.
  - destruct XY as [h|h]; [|subst; lra]. left. apply Rlt_Rpower_l; lra.
Qed.
Lemma pow0_strict : forall k x y, 0 < k -> 0 <= x -> x < y -> pow0 k x < pow0 k y.
Proof.
  intros k x y K X XY. unfold pow0. destruct (Req_EM_T x 0), (Req_EM_T y 0); try lra.
  - apply exp_pos.
  - apply Rlt_Rpower_l; lra.
Qed.
(** Whatever the scale's exponent, a surer plane is drawn more opaque, between 0.1 and
    0.8, its outline up to fully opaque. *)
Theorem C133_opacity : forall k e, 0 < k -> exists fill outline, opacity k (Some e) = Ok (fill, outline) /\
  1 / 10 <= fill <= 8 / 10 /\ fill < outline <= 1 /\
  (e <= 0 -> fill = 8 / 10) /\ (5 <= e -> fill = 1 / 10) /\
  (forall e' f' o', opacity k (Some e') = Ok (f', o') -> e <= e' -> f' <= fill) /\
  (forall e' f' o', opacity k (Some e') = Ok (f', o') -> 0 <= e -> e < e' -> e' <= 5 -> f' < fill).
Proof.
  intros k e K. unfold opacity. do 2 eexists. split; [reflexivity|]. unfold alpha_scale.
  assert (P5 : 0 < pow0 k 5) by (unfold pow0; destruct (Req_EM_T 5 0); [lra|apply exp_pos]).
  assert (P0 : pow0 k 0 = 0) by (unfold pow0; destruct (Req_EM_T 0 0); [reflexivity|lra]).
  assert (CL : forall x, 0 <= Rmax 0 (Rmin 5 x) <= 5).
  { intros x. unfold Rmax, Rmin. destruct (Rle_dec 5 x); destruct (Rle_dec 0 _); lra. }
  assert (Q : forall x, 0 <= pow0 k (Rmax 0 (Rmin 5 x)) / pow0 k 5 <= 1).
  { intros x. destruct (CL x) as [A B]. pose proof (pow0_mono k 0 _ K (Rle_refl 0) A) as L. rewrite P0 in L.
    pose proof (pow0_mono k _ _ K A B) as U. split; [apply Rle_mult_inv_pos; auto|].
    apply Rmult_le_reg_r with (pow0 k 5); auto. unfold Rdiv. rewrite Rmult_assoc, Rinv_l by lra. lra. }
  pose proof (Q e) as QE.
  split; [lra|]. split; [lra|].
  split. { intros H. replace (Rmax 0 (Rmin 5 e)) with 0 by (unfold Rmax, Rmin; destruct (Rle_dec 5 e); destruct (Rle_dec 0 _); lra).
    rewrite P0. unfold Rdiv. lra. }
  split. { intros H. replace (Rmax 0 (Rmin 5 e)) with 5 by (unfold Rmax, Rmin; destruct (Rle_dec 5 e); destruct (Rle_dec 0 _); lra).
    replace (pow0 k 5 / pow0 k 5) with 1 by (field; lra). lra. }
  split.
  - intros e' f' o' E H. injection E; intros _ <-.
    assert (M : Rmax 0 (Rmin 5 e) <= Rmax 0 (Rmin 5 e')).
    { unfold Rmax, Rmin. destruct (Rle_dec 5 e), (Rle_dec 5 e'); repeat destruct (Rle_dec 0 _); lra. }
    destruct (CL e) as [A _]. pose proof (pow0_mono k _ _ K A M) as L.
    apply (Rmult_le_compat_r (/ pow0 k 5)) in L; [|left; now apply Rinv_0_lt_compat]. unfold Rdiv. lra.
  - intros e' f' o' E H0 H H5. injection E; intros _ <-.
    replace (Rmax 0 (Rmin 5 e)) with e by (unfold Rmax, Rmin; destruct (Rle_dec 5 e); destruct (Rle_dec 0 _); lra).
    replace (Rmax 0 (Rmin 5 e')) with e' by (unfold Rmax, Rmin; destruct (Rle_dec 5 e'); destruct (Rle_dec 0 _); lra).
    pose proof (pow0_strict k _ _ K H0 H) as L.
    apply (Rmult_lt_compat_r (/ pow0 k 5)) in L; [|now apply Rinv_0_lt_compat]. unfold Rdiv. lra.
Qed.
(** In the clipped stereonet the opacity falls inversely with the error, at most 0.8,
    the outline at least as opaque as the fill; a negative error, which the sheet
    accepts, makes it negative. *)
Theorem C133_ellipse : forall e, 0 <= e ->
  0 < ellipse_alpha 1 (Some e) <= ellipse_alpha 2 (Some e) /\ ellipse_alpha 2 (Some e) <= 8 / 10 /\
  (forall e', e <= e' -> ellipse_alpha 1 (Some e') <= ellipse_alpha 1 (Some e)) /\
  (25 / 4 <= e -> ellipse_alpha 1 (Some e) = 5 / e).
Proof.
  intros e H. unfold ellipse_alpha. destruct (Req_EM_T e 0) as [z|z].
  - split; [lra|]. split; [lra|]. split; [|lra]. intros e' L. destruct (Req_EM_T e' 0); [lra|]. destruct (Rlt_dec _ _); lra.
  - assert (P : 0 < / e) by (apply Rinv_0_lt_compat; lra). unfold Rdiv.
    split. { destruct (Rlt_dec _ _), (Rlt_dec _ _); lra. }
    split. { destruct (Rlt_dec _ _); lra. }
    split.
    + intros e' L. destruct (Req_EM_T e' 0); [lra|].
      assert (I : / e' <= / e) by (apply Rinv_le_contravar; lra).
      destruct (Rlt_dec _ _), (Rlt_dec _ _); lra.
    + intros L. assert (I : / e <= / (25 * / 4)) by (apply Rinv_le_contravar; lra).
      replace (/ (25 * / 4)) with (4 / 25) in I by field. destruct (Rlt_dec _ _); lra.
Qed.
Theorem C133_negative_refuted : exists e, ellipse_alpha 1 (Some e) < 0.
Proof. exists (-10). unfold ellipse_alpha. destruct (Req_EM_T (-10) 0); [lra|]. destruct (Rlt_dec _ _); lra. Qed.
Example C133_ex : ellipse_alpha 1 (Some 10) = 1 / 2 /\ ellipse_alpha 2 (Some 10) = 8 / 10.
Proof. unfold ellipse_alpha. destruct (Req_EM_T 10 0); [lra|]. split; destruct (Rlt_dec _ _); lra. Qed.

(** * C134: azimuth labels *)
(** The number labelling the meridian on which a horizontal direction is plotted is its
    azimuth, and the four compass points are named. *)
Theorem C134_label : forall show az, 0 <= az < 360 ->
  let lon := fst (js_cart2sph true false true (V3 (sin (radians az)) (cos (radians az)) 0)) in
  -180 < lon <= 180 /\ 180 - lon = az /\
  azimuth_label show lon =
    if Req_EM_T az 0 then "N"%string else if Req_EM_T az 90 then "E"%string
    else if Req_EM_T az 180 then "S"%string else if Req_EM_T az 270 then "W"%string else show az.
Proof.
  intros show az H lon.
  assert (L : lon = 180 / PI * atan2 (sin (radians az)) (- cos (radians az))) by reflexivity.
  pose proof PI_RGT_0 as P.
  assert (A : atan2 (sin (radians az)) (- cos (radians az)) = PI - radians az).
  { replace (sin (radians az)) with (sin (PI - radians az)) by (rewrite sin_minus, sin_PI, cos_PI; ring).
    replace (- cos (radians az)) with (cos (PI - radians az)) by (rewrite cos_minus, sin_PI, cos_PI; ring).
    rewrite <- (Rmult_1_l (sin _)), <- (Rmult_1_l (cos (PI - _))). apply atan2_of_polar; [lra|]. unfold radians.
    assert (az * PI < 360 * PI) by nra. assert (0 <= az * PI) by nra. split; lra. }
  assert (E : 180 - lon = az). { rewrite L, A. unfold radians. field. lra. }
  assert (EL : lon = 180 - az) by lra.
  split; [lra|]. split; [exact E|]. unfold azimuth_label. rewrite E.
  destruct (Req_EM_T az 180), (Req_EM_T az 0), (Req_EM_T az 90), (Req_EM_T az 270); try lra; reflexivity.
Qed.
(** d3's graticule, whose meridians start from -180, has the northern one there, where
    it is labelled with a number. *)
Theorem C134_north_refuted : forall show, azimuth_label show (-180) = show 360 /\ azimuth_label show 180 = "N"%string.
Proof.
  intros show. unfold azimuth_label. replace (180 - -180) with 360 by ring. replace (180 - 180) with 0 by ring.
  split.
  - repeat (destruct (Req_EM_T _ _); [lra|]). reflexivity.
  - destruct (Req_EM_T 0 180); [lra|]. destruct (Req_EM_T 0 90); [lra|]. destruct (Req_EM_T 0 0); [reflexivity|lra].
Qed.
Example C134_ex : azimuth_label (fun _ => "?"%string) 90 = "E"%string.
Proof. unfold azimuth_label. destruct (Req_EM_T _ 180); [lra|]. destruct (Req_EM_T _ 90); [reflexivity|lra]. Qed.

(** * C135: the scales of the side view *)
Lemma xsize_none : forall l, fold_left xsize_step l None = None.
Proof. induction l; simpl; auto. Qed.
Lemma xsize_zero : forall l,
  ((exists v, In v l /\ 0 < hyp_xy v) -> fold_left xsize_step l (Some 0) = None) /\
  ((forall v, In v l -> hyp_xy v = 0) -> fold_left xsize_step l (Some 0) = Some 0).
Proof.
  induction l as [|x l [IH1 IH2]]; simpl; split.
  - intros (v & [] & _).
  - auto.
  - intros (v & [->|I] & H); destruct (Rlt_dec 0 (hyp_xy _)); auto using xsize_none; [lra|]. apply IH1. eauto.
  - intros H. rewrite (H x) by auto. destruct (Rlt_dec 0 0); [lra|]. apply IH2. auto.
Qed.
Lemma hyp_nonneg : forall v, 0 <= hyp_xy v.
Proof. intros; apply sqrt_pos. Qed.
Lemma ysize_spec : forall l s, 0 <= s ->
  s <= fold_left ysize_step l s /\ (forall v, In v l -> Rabs (vz v) <= fold_left ysize_step l s) /\
  (fold_left ysize_step l s = s \/ exists v, In v l /\ fold_left ysize_step l s = Rabs (vz v)).
Proof.
  induction l as [|x l IH]; intros s S; simpl.
  - split; [lra|]. split; [intros v []|auto].
  - assert (E : ysize_step s x = if Rlt_dec s (Rabs (vz x)) then Rabs (vz x) else s) by reflexivity. rewrite E.
    destruct (Rlt_dec s (Rabs (vz x))) as [h|h].
    + destruct (IH (Rabs (vz x))) as (A & B & C); [lra|].
      split; [lra|]. split; [intros v [<-|I]; auto|]. right. destruct C as [C|(v & I & C)]; [exists x|exists v]; auto.
    + destruct (IH s S) as (A & B & C).
      split; [lra|]. split; [intros v [<-|I]; auto; lra|]. destruct C as [C|(v & I & C)]; [auto|right; eauto].
Qed.

(** There is a view exactly when some plane is off the centre horizontally and some
    vertically.  Then both axes have the same scale and every centre fits vertically. *)
Theorem C135_view : forall offsets,
  ((exists v, In v offsets /\ 0 < hyp_xy v) /\ (exists v, In v offsets /\ vz v <> 0) ->
   exists w h, side_view offsets = Ok (w, h) /\ 0 < h /\ w / 650 = h / 260 /\
     forall v, In v offsets -> Rabs (vz v) < h) /\
  (~ ((exists v, In v offsets /\ 0 < hyp_xy v) /\ (exists v, In v offsets /\ vz v <> 0)) ->
   side_view offsets = NonFinite).
Proof.
  intros l. destruct (ysize_spec l 0 (Rle_refl 0)) as (Y0 & YB & YS). unfold side_view. 
  set (y := fold_left ysize_step l 0) in *. split.
  - intros [HX (v & I & Z)]. assert (YP : 0 < y). { apply Rlt_le_trans with (Rabs (vz v)); auto. now apply Rabs_pos_lt. }
    destruct (xsize_zero l) as [X _]. rewrite (X HX). cbn [jmul obind].
    destruct (Req_EM_T (y * (11 / 10)) 0); [lra|].
    eexists. eexists. split; [reflexivity|]. split; [lra|]. split.
    + unfold inner_width, inner_height.
      assert (E : 1 / ((0 - 260) / (y * (11 / 10) - - (y * (11 / 10)))) = - (y * (11 / 10) / 130)) by (field; lra).
      rewrite E, Rabs_Ropp, (Rabs_pos_eq (y * (11 / 10) / 130)) by lra. rewrite Rabs_pos_eq by lra. lra.
    + intros u U. pose proof (YB u U). lra.
  - intros H. destruct (Req_EM_T (y * (11 / 10)) 0) as [z|z]; [reflexivity|].
    assert (YN : exists v, In v l /\ vz v <> 0).
    { destruct YS as [e|(v & I & e)]; [lra|]. exists v. split; auto. intros zz. apply z. rewrite e, zz, Rabs_R0. ring. }
    assert (XN : forall v, In v l -> hyp_xy v = 0).
    { intros v I. destruct (hyp_nonneg v) as [p|p]; auto. exfalso. apply H. split; eauto. }
    destruct (xsize_zero l) as [_ X]. rewrite (X XN). cbn [jmul obind].
    destruct (Req_EM_T (0 * (11 / 10)) 0); [reflexivity|]. exfalso. apply n. ring.
Qed.
(** But the horizontal extent plays no part, so centres can be outside. *)
Theorem C135_horizontal_refuted : exists offsets w h v, side_view offsets = Ok (w, h) /\ In v offsets /\ w < hyp_xy v.
Proof.
  set (l := [V3 100 0 1; V3 (-100) 0 (-1)]).
  destruct (C135_view l) as [V _]. destruct V as (w & h & E & HP & R & F).
  { split; exists (V3 100 0 1); (split; [left; reflexivity|]); simpl; [|lra]. unfold hyp_xy. simpl.
    apply sqrt_lt_R0. lra. }
  exists l, w, h, (V3 100 0 1). split; [exact E|]. split; [left; reflexivity|].
  assert (HV : hyp_xy (V3 100 0 1) = 100).
  { unfold hyp_xy. simpl. replace (100 * 100 + 0 * 0) with (100 * 100) by ring. apply sqrt_square. lra. }
  rewrite HV. assert (HH : h = 11 / 10).
  { revert E. unfold side_view. destruct (xsize_zero l) as [X _]. rewrite X.
    2:{ exists (V3 100 0 1). split; [left; reflexivity|]. rewrite HV. lra. }
    assert (Y : fold_left ysize_step l 0 = 1).
    { unfold l. simpl. unfold ysize_step. simpl. rewrite Rabs_R1. destruct (Rlt_dec 0 1); [|lra].
      rewrite Rabs_left by lra. destruct (Rlt_dec 1 (- -1)); lra. }
    rewrite Y. cbn [jmul obind]. destruct (Req_EM_T (1 * (11 / 10)) 0); [discriminate|]. intros Q. injection Q. intros. lra. }
  lra.
Qed.
(** The width follows from the height alone: moving the planes sideways changes nothing. *)
Theorem C135_sideways : forall a b, map vz a = map vz b ->
  (exists v, In v a /\ 0 < hyp_xy v) -> (exists v, In v b /\ 0 < hyp_xy v) -> side_view a = side_view b.
Proof.
  intros a b E A B. unfold side_view. destruct (xsize_zero a) as [XA _]. destruct (xsize_zero b) as [XB _].
  rewrite (XA A), (XB B).
  assert (Y : forall l s, fold_left ysize_step l s = fold_left (fun s z => if Rlt_dec s (Rabs z) then Rabs z else s) (map vz l) s).
  { induction l as [|x l IH]; intros s; simpl; auto. }
  rewrite !Y, E. reflexivity.
Qed.
Example C135_ex : 0 < hyp_xy (V3 100 0 1).
Proof. unfold hyp_xy. simpl. apply sqrt_lt_R0. lra. Qed.

Print Assumptions C132_drag.
Print Assumptions C132_idle.
Print Assumptions C132_released.
Print Assumptions C132_latitude.
Print Assumptions C133_opacity.
Print Assumptions C133_ellipse.
Print Assumptions C133_negative_refuted.
Print Assumptions C134_label.
Print Assumptions C134_north_refuted.
Print Assumptions C135_view.
Print Assumptions C135_horizontal_refuted.
Print Assumptions C135_sideways.
