(** Properties C182-C185: where the section view puts planes and points. *)
From Coq Require Import Reals List Arith Bool Lra Lia Psatz.
From Verif Require Import RVec Trig MPca MAxes MFront SpecFront SpecNet SpecSide PFront3 MSide.
Import ListNotations.
Open Scope R_scope.

Ltac pairs := repeat match goal with |- (_, _) = (_, _) => apply f_equal2 end.
Lemma turn_z_value : forall a, turn_z a = Some (M3 (V3 (cos a) (- sin a) 0) (V3 (sin a) (cos a) 0) (V3 0 0 1)).
Proof.
  intros a. unfold turn_z, from_axis_angle.
  assert (N : norm ez = 1) by (unfold norm, nrm2, dot, ez; cbn [vx vy vz]; replace (0 * 0 + 0 * 0 + 1 * 1) with 1 by ring; apply sqrt_1).
  rewrite N. unfold fdiv. destruct (Req_EM_T 1 0); [lra|]. cbn [option_map]. unfold to_matrix, ez. cbn [vx vy vz].
  set (h := a * (1 / 2)). replace a with (2 * h) by (unfold h; field).
  pose proof (sincos1 h) as S. rewrite cos_2a, sin_2a.
  replace (sin h / 1) with (sin h) by field.
  replace (cos h * cos h + 0 * sin h * (0 * sin h) + 0 * sin h * (0 * sin h) + 1 * sin h * (1 * sin h)) with 1 by lra.
  destruct (Req_EM_T 1 0); [lra|]. replace (2 / 1) with 2 by field.
  do 2 f_equal; f_equal; lra.
Qed.

(** * C182: planes are put where an orthographic projection puts their centres *)
(** The place of the error polygon, that of the trace and the depth by which planes are
    sorted: the distance towards the viewer.  A missing offset is the origin. *)
Theorem C182_places : forall a xs ys v,
  let screen := ortho a (sc_zero xs) (sc_ratio xs) (sc_zero ys) (sc_ratio ys) in
  error_place a mid xs ys (Space v) = Some (screen v, dot v (towards a)) /\
  trace_place a xs ys v = Some (screen v) /\
  error_place a mid xs ys Nowhere = Some (screen vzero, 0).
Proof.
  intros a xs ys v screen. unfold screen, ortho, error_place, trace_place. rewrite !turn_z_value. cbn [obind].
  rewrite neg_cos, neg_sin. unfold towards, cross, right_of, vm, vadd, vscale, dot, ez, vzero, mid, ex, ey, ez, dot, sc_at. cbn [vx vy vz r0 r1 r2 fst snd].
  repeat split; apply f_equal; pairs; ring.
Qed.
(** In other axes the offset is first expressed in them. *)
Theorem C182_axes : forall a r xs ys v, error_place a r xs ys (Space v) = error_place a mid xs ys (Space (V3 (dot v (r0 (mT r))) (dot v (r1 (mT r))) (dot v (r2 (mT r))))).
Proof.
  intros a r xs ys v. unfold error_place. rewrite turn_z_value. cbn [obind].
  assert (E : forall p, vm p mid = p) by (intros [x y z]; unfold vm, vadd, vscale, mid, dot, ex, ey, ez; cbn [vx vy vz r0 r1 r2]; f_equal; ring).
  rewrite E. replace (V3 (dot v (r0 (mT r))) (dot v (r1 (mT r))) (dot v (r2 (mT r)))) with (vm v r); [reflexivity|].
  unfold vm, mT, vadd, vscale, dot. cbn [vx vy vz r0 r1 r2]. f_equal; ring.
Qed.
(** The view is a right-handed frame and a point farther along [towards] is nearer. *)
Theorem C182_view : forall a, norm (right_of a) = 1 /\ dot (right_of a) ez = 0 /\ norm (towards a) = 1 /\ cross (towards a) (right_of a) = ez.
Proof.
  intros a. pose proof (sincos1 a). unfold norm, nrm2, towards, cross, right_of, dot, ez. cbn [vx vy vz]. repeat split.
  - replace (cos a * cos a + sin a * sin a + 0 * 0) with 1 by lra. apply sqrt_1.
  - ring.
  - match goal with |- sqrt ?x = 1 => replace x with 1 by lra end. apply sqrt_1.
  - f_equal; lra.
Qed.
Example C182_ex : error_place 0 mid (mkScale 100 2) (mkScale 50 (-2)) (Space (V3 3 4 5)) = Some ((106, 40), -4).
Proof.
  destruct (C182_places 0 (mkScale 100 2) (mkScale 50 (-2)) (V3 3 4 5)) as [E _]. rewrite E.
  unfold ortho, dot, towards, cross, right_of, ez. cbn [vx vy vz sc_zero sc_ratio]. rewrite cos_0, sin_0. repeat f_equal; ring.
Qed.

(** * C183: points drawn *)
(** digitizedLine puts every point where the projection does. *)
Theorem C183_digitized : forall xs ys a l offset,
  digitized_screen xs ys mid a l offset =
    Some (map (fun p => ortho a (sc_zero xs) (sc_ratio xs) (sc_zero ys) (sc_ratio ys) (vadd p offset)) l).
Proof.
  intros xs ys a l offset. unfold digitized_screen, digitized. rewrite turn_z_value. cbn [obind option_map]. f_equal.
  rewrite map_map. apply map_ext. intros p. unfold ortho, right_of, vm, vadd, vscale, mT, mid, vadd, dot, ex, ey, ez, sc_at.
  cbn [vx vy vz r0 r1 r2]. f_equal; ring.
Qed.
Lemma rotation_flat : forall a kx ky, 0 < kx -> ky < 0 -> exists fuel0, forall fuel, (fuel0 <= fuel)%nat ->
  trace_rotation fuel ez a kx ky = Some (- 180).
Proof.
  intros a kx ky X Y.
  assert (NZ : ez <> vzero) by (unfold ez, vzero; intros E; injection E; lra).
  assert (VZ : vz ez <> 0) by (cbn; lra).
  destruct (C124_apparent ez (- a + PI / 2) NZ) as (f0 & F). exists f0. intros fuel HF.
  destruct (F fuel HF) as [F1 _]. destruct (F1 VZ) as (d & E & B & D).
  unfold trace_rotation. rewrite E. cbn [obind].
  assert (T : tan d = 0).
  { unfold descends, dot, ez in D. cbn [vx vy vz] in D. lra. }
  rewrite T. unfold screen_ratio.
  assert (Q : kx / ky < 0).
  { unfold Rdiv. assert (/ ky < 0) by now apply Rinv_lt_0_compat. nra. }
  assert (A2 : atan2 0 (kx / ky) = PI).
  { rewrite <- (atan2_of_polar (- (kx / ky)) PI).
    - rewrite sin_PI, cos_PI. f_equal; ring.
    - lra.
    - pose proof PI_RGT_0. lra. }
  rewrite A2. f_equal. pose proof PI_RGT_0. field. lra.
Qed.
(** The trace in use (apparentDip) is turned by half a turn when the vertical scale points
    upwards, and the points are in the plane's own axes.  For a level plane with the first
    axis at the angle [t], points are put by a view at the angle [a + t], both left and right
    and up and down exchanged. *)
Theorem C183_trace : forall a t xs ys l offset, 0 < sc_ratio xs -> sc_ratio ys < 0 ->
  exists fuel0, forall fuel, (fuel0 <= fuel)%nat ->
    let centre := ortho a (sc_zero xs) (sc_ratio xs) (sc_zero ys) (sc_ratio ys) offset in
    trace_screen fuel (M3 (V3 (cos t) (sin t) 0) (V3 (- sin t) (cos t) 0) ez) a xs ys l offset =
      Some (map (fun p => ortho (a + t) (fst centre) (- sc_ratio xs) (snd centre) (- sc_ratio ys) p) l).
Proof.
  intros a t xs ys l offset X Y. destruct (rotation_flat a (sc_ratio xs) (sc_ratio ys) X Y) as (f0 & F). exists f0.
  intros fuel HF centre. unfold trace_screen. destruct (C182_places a xs ys offset) as (_ & E & _). rewrite E. cbn [obind r2].
  rewrite (F fuel HF). cbn [obind]. f_equal. fold centre. unfold trace_points. rewrite map_map. apply map_ext. intros p.
  unfold svg. replace (radians (- 180)) with (- PI) by (unfold radians; field).
  rewrite cos_neg, sin_neg, cos_PI, sin_PI. unfold ortho at 1. unfold right_of, vm, vadd, vscale, mT, dot, ez. cbn [vx vy vz r0 r1 r2 fst snd].
  rewrite cos_plus, sin_plus. f_equal; ring.
Qed.
(** So points of the level plane itself are put in their place for every view exactly when the
    first axis points backwards along x... *)
Theorem C183_where : forall a t xs ys, 0 < sc_ratio xs -> sc_ratio ys < 0 ->
  exists fuel0, forall fuel, (fuel0 <= fuel)%nat ->
    ((forall l offset, Forall (fun p => dot p ez = 0) l ->
       trace_screen fuel (M3 (V3 (cos t) (sin t) 0) (V3 (- sin t) (cos t) 0) ez) a xs ys l offset = digitized_screen xs ys mid a l offset)
     <-> cos t = -1).
Proof.
  intros a t xs ys X Y. 
  assert (EX : exists fuel0, forall fuel, (fuel0 <= fuel)%nat -> trace_rotation fuel ez a (sc_ratio xs) (sc_ratio ys) = Some (- 180)) by now apply rotation_flat.
  destruct EX as (f0 & F0). exists f0. intros fuel HF.
  assert (F : forall l offset, let centre := ortho a (sc_zero xs) (sc_ratio xs) (sc_zero ys) (sc_ratio ys) offset in
    trace_screen fuel (M3 (V3 (cos t) (sin t) 0) (V3 (- sin t) (cos t) 0) ez) a xs ys l offset =
      Some (map (fun p => ortho (a + t) (fst centre) (- sc_ratio xs) (snd centre) (- sc_ratio ys) p) l)).
  { intros l offset centre. unfold trace_screen. destruct (C182_places a xs ys offset) as (_ & E & _). rewrite E. cbn [obind r2].
    rewrite (F0 fuel HF). cbn [obind]. f_equal. fold centre. unfold trace_points. rewrite map_map. apply map_ext. intros p.
    unfold svg. replace (radians (- 180)) with (- PI) by (unfold radians; field).
    rewrite cos_neg, sin_neg, cos_PI, sin_PI. unfold ortho at 1. unfold right_of, vm, vadd, vscale, mT, dot, ez. cbn [vx vy vz r0 r1 r2 fst snd].
    rewrite cos_plus, sin_plus. f_equal; ring. }
  split.
  - intros H. specialize (H [V3 (cos a) (sin a) 0] vzero).
    assert (P : Forall (fun p => dot p ez = 0) [V3 (cos a) (sin a) 0]) by (constructor; [unfold dot, ez; cbn [vx vy vz]; ring | constructor]).
    specialize (H P). rewrite F, C183_digitized in H. injection H. intros _ H0. cbn zeta in H0.
    unfold ortho, right_of, vadd, dot, vzero in H0. cbn [vx vy vz fst snd] in H0. rewrite cos_plus, sin_plus in H0.
    pose proof (sincos1 a) as S.
    assert (K : sc_ratio xs * (cos t + 1) = 0).
    { transitivity (sc_ratio xs * (cos t + 1) * (sin a * sin a + cos a * cos a)); [rewrite S; ring|]. lra. }
    apply Rmult_integral in K. destruct K; lra.
  - intros C l offset P. rewrite F, C183_digitized. f_equal. cbn zeta. apply map_ext_in. intros p I.
    rewrite Forall_forall in P. specialize (P p I).
    assert (S : sin t = 0) by (pose proof (sincos1 t) as S; rewrite C in S; nra).
    unfold ortho, right_of, vadd, dot, ez in *. cbn [vx vy vz fst snd] in *. rewrite cos_plus, sin_plus, C, S. f_equal; [ring|].
    replace (vz p) with 0 by lra. ring.
Qed.
(** ... and one above it never is, while it is in the direction of the axis used (x). *)
Theorem C183_refuted : exists a t xs ys fuel p, 0 < sc_ratio xs /\ sc_ratio ys < 0 /\
  trace_screen fuel (M3 (V3 (cos t) (sin t) 0) (V3 (- sin t) (cos t) 0) ez) a xs ys [p] vzero = Some [(90, 60)] /\
  digitized_screen xs ys mid a [p] vzero = Some [(110, 40)].
Proof.
  pose (xs := mkScale 100 10). pose (ys := mkScale 50 (-10)).
  destruct (C183_trace 0 0 xs ys [V3 1 0 1] vzero) as (f & F); [cbn; lra | cbn; lra|].
  exists 0, 0, xs, ys, f, (V3 1 0 1). split; [cbn; lra|]. split; [cbn; lra|]. split.
  - rewrite (F f (le_n f)). unfold ortho, right_of, dot, vzero, ez, xs, ys. cbn [map vx vy vz fst snd sc_zero sc_ratio].
    rewrite Rplus_0_l, cos_0, sin_0. do 2 f_equal. f_equal; ring.
  - rewrite C183_digitized. unfold ortho, right_of, dot, vzero, vadd, ez, xs, ys. cbn [map vx vy vz fst snd sc_zero sc_ratio].
    rewrite cos_0, sin_0. do 2 f_equal. f_equal; ring.
Qed.
Example C183_ex : 0 < sc_ratio (mkScale 100 10) /\ sc_ratio (mkScale 50 (-10)) < 0 /\ cos PI = -1 /\ Forall (fun p => dot p ez = 0) [V3 1 2 0].
Proof. rewrite cos_PI. unfold dot, ez. cbn. repeat split; try lra. constructor; [cbn; lra | constructor]. Qed.

(** * C184: the line of a plane *)
(** It is as long as set, has the place of the plane's centre in its middle and goes through
    the place of every point of the plane in the vertical section through the centre. *)
Theorem C184_line : forall axes a xs ys w offset, vz (r2 axes) <> 0 -> sc_ratio xs <> 0 -> sc_ratio ys <> 0 ->
  exists fuel0, forall fuel, (fuel0 <= fuel)%nat -> exists p q,
    let screen := ortho a (sc_zero xs) (sc_ratio xs) (sc_zero ys) (sc_ratio ys) in
    trace_line fuel axes a xs ys w offset = Some (p, q) /\ midpoint p q (screen offset) /\
    (fst q - fst p) * (fst q - fst p) + (snd q - snd p) * (snd q - snd p) = w * w /\
    forall s z, dot (r2 axes) (vadd (vscale s (right_of a)) (vscale z ez)) = 0 ->
      on_line p q (screen (vadd offset (vadd (vscale s (right_of a)) (vscale z ez)))).
Proof.
  intros axes a xs ys w offset Z X Y. destruct (C125_trace (r2 axes) a _ _ Z X Y) as (f0 & F). exists f0. intros fuel HF.
  destruct (F fuel HF) as (v & E & P). destruct (C182_places a xs ys offset) as (_ & T & _).
  unfold trace_line. rewrite T. cbn [obind]. rewrite E. cbn [obind]. eexists _, _. cbn zeta. set (screen := ortho a (sc_zero xs) (sc_ratio xs) (sc_zero ys) (sc_ratio ys)).
  split; [reflexivity|]. unfold svg, midpoint, on_line. cbn [fst snd].
  pose proof (sincos1 (radians v)) as S. fold screen. split; [split; field|]. split.
  - set (c := cos (radians v)) in *. set (d := sin (radians v)) in *.
    replace (w * w) with (w * w * (d * d + c * c)) by (rewrite S; ring). field.
  - intros s z D. specialize (P s z). unfold parallel in P. cbn [fst snd] in P.
    assert (D' : dot (r2 axes) (V3 (s * cos a) (s * sin a) z) = 0).
    { rewrite <- D. unfold dot, vadd, vscale, right_of, ez. cbn [vx vy vz]. ring. }
    specialize (P D'). unfold screen, ortho. pose proof (sincos1 a) as SA.
    assert (RR : dot (vadd offset (vadd (vscale s (right_of a)) (vscale z ez))) (right_of a) = dot offset (right_of a) + s).
    { replace s with (s * (sin a * sin a + cos a * cos a)) at 2 by (rewrite SA; ring).
      unfold dot, vadd, vscale, right_of, ez. cbn [vx vy vz]. ring. }
    assert (ZZ : dot (vadd offset (vadd (vscale s (right_of a)) (vscale z ez))) ez = dot offset ez + z).
    { unfold dot, vadd, vscale, right_of, ez. cbn [vx vy vz]. ring. }
    rewrite RR, ZZ. cbn [fst snd]. set (c := cos (radians v)) in *. set (d := sin (radians v)) in *.
    set (k := sc_ratio xs) in *. set (m := sc_ratio ys) in *. clearbody c d k m.
    match goal with |- ?x = 0 => replace x with (w * (c * (m * z) - d * (k * s))) by field end.
    rewrite P. ring.
Qed.
(** The error polygon of the plane lies along that line: points [y] above and below its axis,
    [x] along it, are drawn at the same distances on either side of the line. *)
Theorem C184_polygon : forall axes a xs ys w offset x y, vz (r2 axes) <> 0 -> sc_ratio xs <> 0 -> sc_ratio ys <> 0 ->
  exists fuel0, forall fuel, (fuel0 <= fuel)%nat -> exists p q above below,
    trace_line fuel axes a xs ys w offset = Some (p, q) /\
    error_screen fuel axes a xs ys (Space offset) [(x, y); (x, - y)] = Some [above; below] /\
    exists m, midpoint above below m /\ on_line p q m /\
      dist2 m (ortho a (sc_zero xs) (sc_ratio xs) (sc_zero ys) (sc_ratio ys) offset) = x * x /\
      (fst q - fst p) * (fst above - fst below) + (snd q - snd p) * (snd above - snd below) = 0 /\
      (fst q - fst p) * (snd above - snd below) - (snd q - snd p) * (fst above - fst below) = w * (2 * y).
Proof.
  intros axes a xs ys w offset x y Z X Y. destruct (C125_trace (r2 axes) a _ _ Z X Y) as (f0 & F). exists f0. intros fuel HF.
  destruct (F fuel HF) as (v & E & _). destruct (C182_places a xs ys offset) as (T' & T & _).
  unfold trace_line, error_screen. rewrite T, T'. cbn [obind]. rewrite E. cbn [obind map].
  set (o := ortho a (sc_zero xs) (sc_ratio xs) (sc_zero ys) (sc_ratio ys) offset).
  eexists _, _, _, _. split; [reflexivity|]. split; [reflexivity|]. pose proof (sincos1 (radians v)) as S.
  exists (svg o v (x, 0)). unfold svg, midpoint, on_line, dist2. cbn [fst snd].
  set (c := cos (radians v)) in *. set (d := sin (radians v)) in *. clearbody c d.
  split; [split; ring|]. split; [field|]. split; [|split].
  - replace (x * x) with (x * x * (d * d + c * c)) by (rewrite S; ring). ring.
  - field.
  - replace (w * (2 * y)) with (w * (2 * y) * (d * d + c * c)) by (rewrite S; ring). field.
Qed.
Example C184_ex : vz (r2 (M3 ex ey (V3 1 2 2))) <> 0 /\
  dot (V3 1 2 2) (vadd (vscale 2 (right_of 0)) (vscale (-1) ez)) = 0.
Proof. split; [cbn; lra|]. unfold dot, vadd, vscale, right_of, ez. cbn [vx vy vz]. rewrite cos_0, sin_0. ring. Qed.

(** * C185: settings of the error polygons *)
Definition set_width (c : hcall) := match c with HWidth w => w | _ => None end.
Definition set_nominal (c : hcall) := match c with HNominal b => b | _ => None end.
Definition set_scaled (c : hcall) := match c with HScale b => b | _ => None end.
Lemma h_fields : forall cs s, let s' := fold_left h_step cs s in
  h_width s' = last_of set_width cs (h_width s) /\ h_nominal s' = last_of set_nominal cs (h_nominal s) /\
  h_scaled s' = last_of set_scaled cs (h_scaled s).
Proof.
  induction cs as [|c cs IH]; intros s; [now repeat split|]. cbn [fold_left last_of]. destruct (IH (h_step s c)) as (A & B & C).
  cbn zeta. rewrite A, B, C. destruct c as [[w|]|[b|]|[b|]|]; cbn; auto.
Qed.
(** Each setting has the value given last, or 400, false and true. *)
Theorem C185_settings : forall cs,
  h_width (h_run cs) = last_of set_width cs 400 /\ h_nominal (h_run cs) = last_of set_nominal cs false /\
  h_scaled (h_run cs) = last_of set_scaled cs true.
Proof. intros cs. apply (h_fields cs h0). Qed.
Lemma flat_iff : forall cs, h_flat (h_run cs) = true <->
  exists before after, cs = before ++ HDraw :: after /\ last_of set_scaled before true = false.
Proof.
  intros cs. induction cs as [|c cs IH] using rev_ind.
  - split; [discriminate|]. intros (b & a & E & _). destruct b; discriminate.
  - unfold h_run in *. rewrite fold_left_app. cbn [fold_left]. set (s := fold_left h_step cs h0) in *.
    assert (SC : h_scaled s = last_of set_scaled cs true) by apply (h_fields cs h0).
    assert (PREV : h_flat s = true -> exists before after, cs ++ [c] = before ++ HDraw :: after /\ last_of set_scaled before true = false).
    { intros H. apply IH in H. destruct H as (b & a & E & L). exists b, (a ++ [c]). rewrite E, <- app_assoc. auto. }
    assert (BACK : forall b a, cs ++ [c] = b ++ HDraw :: a -> last_of set_scaled b true = false ->
      h_flat s = true \/ (c = HDraw /\ h_scaled s = false)).
    { intros b a E L. destruct (exists_last (l := HDraw :: a)) as (m & x & M); [discriminate|].
      rewrite M, app_assoc in E. apply app_inj_tail in E. destruct E as [E1 E2]. subst x.
      destruct m as [|y m].
      - cbn in M. injection M. intros -> ->. right. split; auto. rewrite SC, E1, app_nil_r. exact L.
      - cbn in M. injection M. intros _ <-. left. apply IH. exists b, m. auto. }
    split.
    + intros H. destruct c as [[w|]|[b|]|[b|]|]; cbn in H; auto. destruct (h_scaled s) eqn:Q; auto.
      exists cs, []. split; auto.
    + intros (b & a & E & L). destruct (BACK b a E L) as [H|[-> H]].
      * destruct c as [[w|]|[b'|]|[b'|]|]; cbn; auto. rewrite H. now destruct (h_scaled s).
      * cbn. rewrite H. reflexivity.
Qed.
(** The vertical coordinate has the vertical scale exactly if error angles were exaggerated
    with the scale at this drawing and every one before. *)
Theorem C185_polygon : forall cs a b kx ky,
  (h_polygon cs a b kx ky = map (fun p => (fst p * kx, snd p * ky)) (outline a b (last_of set_width cs 400) kx) /\
   forall before after, cs ++ [HDraw] = before ++ HDraw :: after -> last_of set_scaled before true = true)
  \/
  (h_polygon cs a b kx ky = map (fun p => (fst p * kx, snd p * kx)) (outline a b (last_of set_width cs 400) kx) /\
   exists before after, cs ++ [HDraw] = before ++ HDraw :: after /\ last_of set_scaled before true = false).
Proof.
  intros cs a b kx ky. unfold h_polygon.
  assert (W : h_width (h_run (cs ++ [HDraw])) = last_of set_width cs 400).
  { unfold h_run. rewrite fold_left_app. cbn. apply (h_fields cs h0). }
  rewrite W. destruct (h_flat (h_run (cs ++ [HDraw]))) eqn:E.
  - right. split; [|now apply flat_iff]. apply map_ext. now intros [x y].
  - left. split; [apply map_ext; now intros [x y]|]. intros be af Q. destruct (last_of set_scaled be true) eqn:L; auto.
    assert (h_flat (h_run (cs ++ [HDraw])) = true) by (apply flat_iff; eauto). congruence.
Qed.
(** Switching exaggeration off, drawing and switching it on again leaves it off. *)
Theorem C185_refuted : exists cs a b kx ky, last_of set_scaled cs true = true /\
  h_polygon cs a b kx ky <> map (fun p => (fst p * kx, snd p * ky)) (outline a b (last_of set_width cs 400) kx).
Proof.
  exists [HScale (Some false); HDraw; HScale (Some true)], 1, 1, 1, (-2). split; [reflexivity|].
  unfold h_polygon. cbn [h_run app fold_left h_step h0 h_width h_nominal h_scaled h_flat last_of set_width].
  intros H. apply (f_equal (fun l => snd (nth 1%nat l (0, 0)))) in H. cbn in H. lra.
Qed.
(** Half the side of the mask is the horizontal extent, on the screen, of an asymptote of the
    error hyperbola as long as half the width, unless exaggeration has been switched back on. *)
Theorem C185_mask : forall cs a b kx ky x y, 0 < a -> 0 < b -> kx <> 0 -> ky <> 0 ->
  let s := h_run (cs ++ [HDraw]) in
  (h_scaled s = true -> h_flat s = false) ->
  x * (b * (if h_flat s then kx else ky)) = y * (a * kx) -> x * x + y * y = (h_width s / 2) * (h_width s / 2) ->
  mask_size s a b (kx / ky) = Rabs x.
Proof.
  intros cs a b kx ky x y A B X Y s ST L D.
  assert (FL : h_flat s = negb (h_scaled s)).
  { destruct (h_scaled s) eqn:E; [auto|]. unfold s, h_run in *. rewrite fold_left_app in *. cbn [fold_left] in *.
    set (s0 := fold_left h_step cs h0) in *. cbn in *. now rewrite E. }
  assert (CC : cos (if h_scaled s then atan2 b (a * (kx / ky)) else atan2 b a) * cos (if h_scaled s then atan2 b (a * (kx / ky)) else atan2 b a) * ((h_width s / 2) * (h_width s / 2)) = x * x).
  { assert (G : forall q, q <> 0 -> x * b = y * q -> cos (atan2 b q) * cos (atan2 b q) * (x * x + y * y) = x * x).
    { intros q Q E. assert (H0 : 0 < q * q + b * b) by nra. rewrite cos_atan2 by (left; exact Q).
      assert (W : 0 < sqrt (q * q + b * b)) by now apply sqrt_lt_R0.
      assert (SS : sqrt (q * q + b * b) * sqrt (q * q + b * b) = q * q + b * b) by (apply sqrt_sqrt; lra).
      set (w := sqrt (q * q + b * b)) in *. apply Rmult_eq_reg_r with (w * w); [|nra].
      transitivity (q * q * (x * x + y * y)); [field; lra|]. rewrite SS.
      replace (q * q * (x * x + y * y)) with (q * q * (x * x) + (y * q) * (y * q)) by ring. rewrite <- E. ring. }
    rewrite <- D. rewrite FL in L. destruct (h_scaled s); cbn [negb] in L.
    - apply G.
      + unfold Rdiv. intros Z. apply Rmult_integral in Z. destruct Z as [Z|Z]; [lra|]. apply Rmult_integral in Z. destruct Z as [Z|Z]; [lra|].
        now apply (Rinv_neq_0_compat ky Y).
      + apply Rmult_eq_reg_r with ky; [|auto]. transitivity (x * (b * ky)); [ring|]. rewrite L. field. auto.
    - apply G; [lra|]. apply Rmult_eq_reg_r with kx; [|auto]. lra. }
  unfold mask_size. set (c := cos _) in *. clearbody c. set (h := h_width s / 2) in *.
  apply Rsqr_inj; try apply Rabs_pos. rewrite <- !Rsqr_abs. unfold Rsqr. lra.
Qed.
Example C185_ex : let cs := [HScale (Some false); HWidth (Some 150); HScale None] in
  (last_of set_scaled cs true = false) /\ (last_of set_width cs 400 = 150).
Proof. split; reflexivity. Qed.

Print Assumptions C182_places.
Print Assumptions C182_axes.
Print Assumptions C182_view.
Print Assumptions C183_digitized.
Print Assumptions C183_trace.
Print Assumptions C183_where.
Print Assumptions C183_refuted.
Print Assumptions C184_line.
Print Assumptions C184_polygon.
Print Assumptions C185_settings.
Print Assumptions C185_polygon.
Print Assumptions C185_refuted.
Print Assumptions C185_mask.
