(** Properties of the browser's stereonet: compass, labels, component, data panel. *)
From Coq Require Import Reals Lra Lia Psatz List Arith String Bool.
From Verif Require Import RVec Trig SpecPlane LSvd LFit LAngles MPca MAxes MSphere LRecon MFront SpecStereo SpecFront MUi MNet SpecNet PNet.
Import ListNotations.
Open Scope R_scope.

(** * C170: the compass of the vertical net *)
Lemma turned_up : forall l, turned (l, -90, 0) = mkView (V3 0 0 1) (V3 (cos (radians l)) (- sin (radians l)) 0) (V3 (sin (radians l)) (cos (radians l)) 0).
Proof.
  intros l. unfold turned. destruct (turned_base l (-90)) as (E1 & E2 & E3). rewrite E1, E2, E3.
  replace (-90) with (- (90)) by ring. rewrite rad_neg, rad_90, cos_neg, sin_neg, cos_PI2, sin_PI2, rad_0, cos_0, sin_0.
  f_equal; apply vec3_eq; unfold vsub, vadd, vscale; cbn [vx vy vz]; ring.
Qed.
Lemma turned_down : turned (0, 90, 0) = mkView (V3 0 0 (-1)) (V3 1 0 0) (V3 0 (-1) 0).
Proof.
  unfold turned. destruct (turned_base 0 90) as (E1 & E2 & E3). rewrite E1, E2, E3.
  rewrite rad_90, cos_PI2, sin_PI2, rad_0, cos_0, sin_0.
  f_equal; apply vec3_eq; unfold vsub, vadd, vscale; cbn [vx vy vz]; ring.
Qed.
Lemma lean_root : forall d, 0 <= d < 180 -> sqrt (2 / (1 + cos (radians d))) * sin (radians d) = 2 * sin (radians (d / 2)).
Proof.
  intros d D. assert (CP : 0 < cos (radians (d / 2))) by (apply cos_rad_pos; lra).
  assert (C : 1 + cos (radians d) = 2 * (cos (radians (d / 2)) * cos (radians (d / 2)))).
  { replace (radians d) with (2 * radians (d / 2)) by (unfold radians; field). rewrite cos_2a_cos. ring. }
  rewrite C. replace (2 / (2 * (cos (radians (d / 2)) * cos (radians (d / 2))))) with (/ cos (radians (d / 2)) * / cos (radians (d / 2))) by (field; lra).
  rewrite sqrt_square by (apply Rlt_le, Rinv_0_lt_compat; lra). rewrite (sin_half d). field. lra.
Qed.
(** After clipAngle() the net is seen from above: the direction leaning by [d] from the
    vertical towards the azimuth [az] is drawn at that bearing on the screen, north upwards
    and east to the right, at the distance 2 k sin (d / 2); for horizontal directions this
    is the edge of the net. *)
Theorem C170_vertical : forall p k q az d, pr_scale p = Some k -> pr_rotate p = (0, -90, 0) -> 0 <= d < 180 ->
  enu q = leaning az d ->
  project p q = Some (fst (pr_translate p) + 2 * k * sin (radians (d / 2)) * sin (radians az),
                      snd (pr_translate p) - 2 * k * sin (radians (d / 2)) * cos (radians az)).
Proof.
  intros p k q az d HK HR D Q.
  assert (CB : 1 + cos (radians d) <> 0).
  { assert (CP : 0 < cos (radians (d / 2))) by (apply cos_rad_pos; lra).
    replace (radians d) with (2 * radians (d / 2)) by (unfold radians; field). rewrite cos_2a_cos. nra. }
  assert (X : dot (leaning az d) (V3 0 0 1) = cos (radians d)) by (unfold dot, leaning; cbn [vx vy vz]; ring).
  rewrite (project_value p k q HK); rewrite HR, turned_up, Q; cbn [v_centre v_right v_up]; rewrite X; [|lra].
  rewrite rad_0, cos_0, sin_0. unfold dot, leaning. cbn [vx vy vz]. do 2 f_equal.
  - transitivity (fst (pr_translate p) + k * (sqrt (2 / (1 + cos (radians d))) * sin (radians d)) * sin (radians az)); [ring|].
    rewrite lean_root by exact D. ring.
  - transitivity (snd (pr_translate p) - k * (sqrt (2 / (1 + cos (radians d))) * sin (radians d)) * cos (radians az)); [ring|].
    rewrite lean_root by exact D. ring.
Qed.
(** The labels N, E, S and W stand at the bearings 0, 90, 180 and 270 from the centre of the
    net, beyond the circle of radius size / 2 - margin. *)
Theorem C170_labels : forall s pad i, (i < 4)%nat -> let az := 90 * INR i in
  exists r, compass_label pad s i = (n_size s / 2 + r * sin (radians az), n_size s / 2 - r * cos (radians az)) /\
    n_size s / 2 - n_margin s + pad + 5 <= r <= n_size s / 2 - n_margin s + pad + 8.
Proof.
  intros s pad i I az. exists (n_size s / 2 - n_margin s + pad + 5 + (if (i =? 0)%nat then 3 else 0)).
  assert (A : (nth i [0; 90; 180; 270] 0 - 90) * PI / 180 = radians az - PI / 2).
  { unfold az, radians. destruct i as [|[|[|[|i]]]]; cbn [nth INR]; try lia; field. }
  unfold compass_label. rewrite A.
  replace (cos (radians az - PI / 2)) with (sin (radians az)) by (rewrite <- cos_90m, <- cos_neg; f_equal; ring).
  replace (sin (radians az - PI / 2)) with (- cos (radians az)) by (rewrite <- sin_90m, <- sin_neg; f_equal; ring).
  split; [|destruct (i =? 0)%nat; lra].
  destruct i as [|i]; cbn [Nat.eqb].
  - unfold az. cbn [INR]. rewrite Rmult_0_r, rad_0, cos_0, sin_0. f_equal; ring.
  - f_equal; ring.
Qed.
(** The label of the dip [d] is where the poles of planes with that dip are drawn, towards
    the azimuth 320. *)
Theorem C170_dip : forall d, enu (dip_label d) = leaning 320 d.
Proof.
  intros d. unfold enu, dip_label, leaning. cbn [fst snd]. rewrite rad_90m, cos_90m, sin_90m.
  replace (radians 220) with (PI + radians 40) by (unfold radians; field).
  replace (radians 320) with (2 * PI - radians 40) by (unfold radians; field).
  rewrite sin_plus, cos_plus, sin_minus, cos_minus, sin_PI, cos_PI, sin_2PI, cos_2PI.
  apply vec3_eq; cbn [vx vy vz]; ring.
Qed.
(** center("vertical") looks from below: on a net of the default size the label N is above
    the centre and the north is drawn below it. *)
Theorem C170_vertical_refuted : exists cs, let n := net_run net0 (cs ++ [CenterVertical; Mount]) in
  snd (compass_label 2 n 0) < 150 /\ pr_translate (n_proj n) = (150, 150) /\ enu (180, 0) = azimuth_vec 0 /\
  exists x y, project (n_proj n) (180, 0) = Some (x, y) /\ 150 < y.
Proof.
  exists []. intros n. destruct (C168_mounted [CenterVertical] eq_refl) as (T & R & S & _).
  change ([CenterVertical] ++ [Mount])%list with ([] ++ [CenterVertical; Mount])%list in T, R, S. fold n in T, R, S.
  cbn [last_of size_of margin_of angle_of rotation_of] in T, R, S. specialize (S eq_refl).
  assert (N : enu (180, 0) = V3 0 1 0).
  { unfold enu. cbn [fst snd]. rewrite rad_180, rad_0, cos_PI, sin_PI, cos_0, sin_0. apply vec3_eq; cbn [vx vy vz]; ring. }
  assert (A1 : n_size n = 300) by reflexivity. assert (A2 : n_margin n = 20) by reflexivity.
  split; [|split; [|split]].
  - unfold compass_label. rewrite A1, A2. cbn [nth Nat.eqb snd]. replace ((0 - 90) * PI / 180) with (- (PI / 2)) by field.
    rewrite sin_neg, sin_PI2. lra.
  - rewrite T. f_equal; field.
  - rewrite N. unfold azimuth_vec. rewrite rad_0, cos_0, sin_0. reflexivity.
  - rewrite (project_value (n_proj n) _ _ S); rewrite R, turned_down, N; unfold dot; cbn [v_centre v_right v_up vx vy vz]; [|lra].
    do 2 eexists. split; [reflexivity|]. rewrite T. cbn [snd].
    replace (2 / (1 + (0 * 0 + 1 * 0 + 0 * -1))) with 2 by field. assert (0 < sqrt 2) by (apply sqrt_lt_R0; lra). lra.
Qed.
(** The labels E and W of the horizontal net are at the height of the centre, at the drawn
    east and west exactly when size and margin are in one proportion. *)
Theorem C170_sides : forall cs (east : bool), forallb (fun c => negb (rectangular c)) cs = true ->
  let n := net_run net0 (cs ++ [Mount]) in
  let sz := last_of size_of cs 300 in let m := last_of margin_of cs 20 in
  last_of angle_of cs 90 = 90 -> last_of rotation_of cs (0, 0, 0) = (0, 0, 0) ->
  exists x, project (n_proj n) (if east then 90 else -90, 0) = Some (x, snd (side_label n east)) /\
    (x = fst (side_label n east) <-> sz * (2 * sqrt 2 / 5 - 1 / 2) = (sqrt 2 - 1) * m).
Proof.
  intros cs east H n sz m A R0. destruct (C168_mounted cs H) as (T & Ro & S & _). fold n sz m in T, Ro, S.
  specialize (S A). rewrite R0 in Ro.
  destruct (run_fields (cs ++ [Mount]) net0) as (F1 & F2 & _). fold n in F1, F2.
  assert (LA : forall (f : call -> option R) b, f Mount = None -> last_of f (cs ++ [Mount]) b = last_of f cs b).
  { intros f. clear -f. induction cs as [|c cs IH]; intros b HM; cbn [app last_of]; [now rewrite HM|]. apply IH. exact HM. }
  rewrite LA in F1, F2 by reflexivity. change (n_size net0) with 300 in F1. change (n_margin net0) with 20 in F2. fold sz in F1. fold m in F2.
  assert (TU : turned (0, 0, 0) = mkView (V3 0 (-1) 0) (V3 1 0 0) (V3 0 0 1)).
  { unfold turned. destruct (turned_base 0 0) as (E1 & E2 & E3). rewrite E1, E2, E3, rad_0, cos_0, sin_0.
    f_equal; apply vec3_eq; unfold vsub, vadd, vscale; cbn [vx vy vz]; ring. }
  assert (U : enu (if east then 90 else -90, 0) = V3 (if east then 1 else -1) 0 0).
  { unfold enu. cbn [fst snd]. replace (radians (if east then 90 else -90)) with ((if east then 1 else -1) * (PI / 2)) by (unfold radians; destruct east; field).
    rewrite rad_0, cos_0, sin_0. destruct east.
    - replace (1 * (PI / 2)) with (PI / 2) by ring. rewrite cos_PI2, sin_PI2. apply vec3_eq; cbn [vx vy vz]; ring.
    - replace (-1 * (PI / 2)) with (- (PI / 2)) by ring. rewrite cos_neg, sin_neg, cos_PI2, sin_PI2. apply vec3_eq; cbn [vx vy vz]; ring. }
  rewrite (project_value (n_proj n) _ _ S); rewrite Ro, TU, U, ?T; unfold dot; cbn [v_centre v_right v_up vx vy vz fst snd];
    [|destruct east; lra].
  unfold side_label. rewrite F1, F2. cbn [fst snd].
  set (e := if east then 1 else -1). replace (2 / (1 + (e * 0 + 0 * -1 + 0 * 0))) with 2 by field.
  eexists. split; [do 2 f_equal; ring|]. unfold e. destruct east; split; intros E; lra.
Qed.
Example C170_ex : let p := n_proj (net_run net0 [ClipAngle 60; Mount]) in
  exists k, pr_scale p = Some k /\ project p (90, 0) = Some (150 + sqrt 2 * k, 150) /\ project p (dip_label 60) = Some (150 + k * sin (radians 320), 150 - k * cos (radians 320)).
Proof.
  intros p. destruct (C168_mounted [ClipAngle 60] eq_refl) as (T & R & _ & _ & S & _).
  change ([ClipAngle 60] ++ [Mount])%list with [ClipAngle 60; Mount] in T, R, S. fold p in T, R, S.
  cbn [last_of size_of margin_of angle_of rotation_of] in T, R, S.
  assert (S60 : 0 < sin (radians 60)) by (apply sin_rad_pos; lra). specialize (S ltac:(lra) ltac:(lra)).
  eexists. split; [exact S|]. split.
  - rewrite (C170_vertical p _ _ 90 90 S R ltac:(lra)).
    + rewrite T. cbn [fst snd]. replace (radians (90 / 2)) with (PI / 4) by (unfold radians; field). rewrite sin_PI4, rad_90, cos_PI2, sin_PI2.
      assert (Q : sqrt 2 * sqrt 2 = 2) by (apply sqrt_sqrt; lra). assert (0 < sqrt 2) by (apply sqrt_lt_R0; lra).
      replace (1 / sqrt 2) with (sqrt 2 / 2); [do 2 f_equal; field; lra|].
      field_simplify_eq; [|lra]. replace (sqrt 2 ^ 2) with (sqrt 2 * sqrt 2) by ring. exact Q.
    + unfold enu, leaning. cbn [fst snd]. rewrite rad_90, rad_0, cos_PI2, sin_PI2, cos_0, sin_0. apply vec3_eq; cbn [vx vy vz]; ring.
  - rewrite (C170_vertical p _ _ 320 60 S R ltac:(lra) (C170_dip 60)). rewrite T. cbn [fst snd].
    replace (radians (60 / 2)) with (PI / 6) by (unfold radians; field). rewrite sin_PI6. do 2 f_equal; field; lra.
Qed.

(** * C171: which labels are shown *)
Definition label_dist (c : vec3) (n : lname) : R := acos (dot (enu (label_at n)) c).
Definition opposite (n : lname) : lname :=
  match n with LN => LS | LS => LN | LE => LW | LW => LE | LUp => LDown | LDown => LUp end.
Definition vertical (n : lname) : bool := match n with LUp | LDown => true | _ => false end.
Lemma label_dirs : enu (label_at LN) = V3 0 1 0 /\ enu (label_at LE) = V3 1 0 0 /\ enu (label_at LS) = V3 0 (-1) 0 /\
  enu (label_at LW) = V3 (-1) 0 0 /\ enu (label_at LUp) = V3 0 0 1 /\ enu (label_at LDown) = V3 0 0 (-1).
Proof.
  unfold enu, label_at. cbn [fst snd]. replace (-90) with (- (90)) by ring.
  rewrite rad_neg, rad_180, rad_90, rad_0, cos_neg, sin_neg, cos_PI, sin_PI, cos_0, sin_0, cos_PI2, sin_PI2.
  repeat split; apply vec3_eq; cbn [vx vy vz]; ring.
Qed.
Lemma opposite_dist : forall c n, unit3 c -> label_dist c n + label_dist c (opposite n) = PI.
Proof.
  intros c n U. unfold label_dist.
  assert (E : dot (enu (label_at (opposite n))) c = - dot (enu (label_at n)) c).
  { destruct label_dirs as (A & B & C & D & E & F). destruct n; cbn [opposite]; rewrite ?A, ?B, ?C, ?D, ?E, ?F; unfold dot; cbn [vx vy vz]; ring. }
  rewrite E, acos_opp. ring.
Qed.
(** A label is shown when it is on the near side, up to a hundredth of a radian beyond the
    limb, and not at the centre; Up and Down only from 45 degrees on.  So of two opposite
    labels one is shown unless it is hidden at the centre, and both only along the limb. *)
Theorem C171_opposite : forall c n, unit3 c -> label_dist c n <= label_dist c (opposite n) ->
  (label_shown n (label_dist c n) = true <-> (if vertical n then PI / 4 else 1 / 100) <= label_dist c n) /\
  (label_shown (opposite n) (label_dist c (opposite n)) = true <-> PI / 2 - 1 / 100 <= label_dist c n).
Proof.
  intros c n U L. pose proof (opposite_dist c n U) as S. pose proof PI_RGT_0. pose proof PI_4. pose proof PI2_1.
  set (d := label_dist c n) in *. set (d' := label_dist c (opposite n)) in *.
  assert (V : vertical (opposite n) = vertical n) by (destruct n; reflexivity).
  assert (LS : forall m x, label_shown m x = true <-> (vertical m = true -> PI / 4 <= x) /\ 1 / 100 <= x <= PI / 2 + 1 / 100).
  { intros m x. unfold label_shown. fold (vertical m). destruct (vertical m); cbn [andb].
    - destruct (Rlt_dec x (PI / 4)); cbn [andb]; [split; [discriminate|intros [A _]; specialize (A eq_refl); lra]|].
      destruct (Rlt_dec x (1 / 100)); [split; [discriminate|lra]|]. destruct (Rlt_dec (PI / 2 + 1 / 100) x); [split; [discriminate|lra]|].
      split; [|reflexivity]. intros _. split; [intros _|]; lra.
    - destruct (Rlt_dec x (1 / 100)); [split; [discriminate|lra]|]. destruct (Rlt_dec (PI / 2 + 1 / 100) x); [split; [discriminate|lra]|].
      split; [|reflexivity]. intros _. split; [discriminate|lra]. }
  rewrite !LS, V. split; split.
  - intros [A B]. destruct (vertical n); [now apply A|lra].
  - intros A. split; [intros Vt; rewrite Vt in A; exact A|]. destruct (vertical n); lra.
  - intros [A B]. lra.
  - intros A. split; [intros _|]; lra.
Qed.
(** Whatever the view, at least one of N, E, S and W is shown. *)
Theorem C171_some_shown : forall c, unit3 c -> exists n, vertical n = false /\ label_shown n (label_dist c n) = true.
Proof.
  intros c U. assert (K : forall n, vertical n = false -> (exists m, vertical m = false /\ label_shown m (label_dist c m) = true) \/
     label_dist c n < 1 / 100 \/ label_dist c (opposite n) < 1 / 100).
  { intros n V. destruct (Rle_dec (label_dist c n) (label_dist c (opposite n))) as [L|L].
    - destruct (Rle_dec (1 / 100) (label_dist c n)) as [G|G]; [|right; left; lra]. left. exists n. split; [exact V|].
      destruct (C171_opposite c n U L) as [A _]. apply A. now rewrite V.
    - assert (OO : opposite (opposite n) = n) by (destruct n; reflexivity). assert (V' : vertical (opposite n) = false) by (destruct n; auto).
      destruct (Rle_dec (1 / 100) (label_dist c (opposite n))) as [G|G]; [|right; right; lra]. left. exists (opposite n). split; [exact V'|].
      destruct (C171_opposite c (opposite n) U) as [A _]; [rewrite OO; lra|]. apply A. now rewrite V'. }
  destruct (K LN eq_refl) as [X|X]; [exact X|]. destruct (K LE eq_refl) as [Y|Y]; [exact Y|]. exfalso.
  destruct label_dirs as (DN & DE & DS & DW & _). cbn [opposite] in X, Y. unfold label_dist in X, Y.
  rewrite DN, DS in X. rewrite DE, DW in Y. destruct c as [x y z]. unfold unit3, nrm2, dot in U, X, Y. cbn [vx vy vz] in U, X, Y.
  assert (B : forall t, -1 <= t <= 1 -> acos t < 1 / 100 -> 9 / 10 < t).
  { intros t T A. pose proof PI2_1. destruct (Rlt_dec (9 / 10) t) as [G|G]; [exact G|]. exfalso.
    pose proof (acos_bound t) as AB.
    assert (CC : cos (1 / 100) < t).
    { rewrite <- (cos_acos t T). apply cos_decreasing_1; lra. }
    pose proof (COS_bound (1 / 100)). pose proof (sc1 (1 / 100)) as SC.
    assert (SB : sin (1 / 100) < 1 / 100) by (apply sin_lt_x; lra). assert (SP : 0 < sin (1 / 100)) by (apply sin_gt_0; lra).
    assert (CP : 0 < cos (1 / 100)) by (apply cos_gt_0; lra). nra. }
  assert (TX : x * x <= 1) by nra. assert (TY : y * y <= 1) by nra.
  assert (EX : 9 / 10 < x \/ 9 / 10 < - x).
  { destruct Y as [Y|Y]; [left; apply B; [nra|replace x with (1 * x + 0 * y + 0 * z) by ring; exact Y]
      |right; apply B; [nra|replace (- x) with (-1 * x + 0 * y + 0 * z) by ring; exact Y]]. }
  assert (EY : 9 / 10 < y \/ 9 / 10 < - y).
  { destruct X as [X|X]; [left; apply B; [nra|replace y with (0 * x + 1 * y + 0 * z) by ring; exact X]
      |right; apply B; [nra|replace (- y) with (0 * x + -1 * y + 0 * z) by ring; exact X]]. }
  destruct EX, EY; nra.
Qed.
(** Seen from above, all four compass labels are shown and neither Up nor Down. *)
Example C171_ex : let c := V3 0 0 1 in
  label_shown LN (label_dist c LN) = true /\ label_shown LS (label_dist c LS) = true /\
  label_shown LUp (label_dist c LUp) = false /\ label_shown LDown (label_dist c LDown) = false.
Proof.
  intros c. assert (U : unit3 c) by (unfold unit3, nrm2, dot, c; cbn [vx vy vz]; ring).
  destruct label_dirs as (DN & _ & DS & _ & DU & DD). pose proof PI_RGT_0. pose proof PI2_1.
  assert (L0 : label_dist c LN = PI / 2 /\ label_dist c LS = PI / 2 /\ label_dist c LUp = 0 /\ label_dist c LDown = PI).
  { unfold label_dist. rewrite DN, DS, DU, DD. unfold dot, c. cbn [vx vy vz].
    replace (0 * 0 + 1 * 0 + 0 * 1) with 0 by ring. replace (0 * 0 + -1 * 0 + 0 * 1) with 0 by ring.
    replace (0 * 0 + 0 * 0 + 1 * 1) with 1 by ring. replace (0 * 0 + 0 * 0 + -1 * 1) with (-1) by ring.
    rewrite acos_0, acos_1. replace (-1) with (- (1)) by ring. rewrite acos_opp, acos_1. repeat split; ring. }
  destruct L0 as (A & B & C & D). rewrite A, B, C, D. unfold label_shown. cbn [andb].
  repeat (destruct (Rlt_dec _ _); try lra); repeat split; reflexivity.
Qed.

Print Assumptions C170_vertical.
Print Assumptions C170_labels.
Print Assumptions C170_dip.
Print Assumptions C170_vertical_refuted.
Print Assumptions C170_sides.
Print Assumptions C171_opposite.
Print Assumptions C171_some_shown.
