(** Properties C155-C158: comparison of errors, bands of 2-D covariances, percentiles,
    resampling. *)
From Coq Require Import Reals Lra Lia List Psatz Arith Bool ZArith Permutation Sorted.
From Verif Require Import RVec Trig SpecPlane MPca LSvd LPca LFit LAngles LFit2 LExamples PPca MAxes LAxes PAxes LRecon LNum SpecConics MConics LConics MHyper PHyper MFigures PFigures2.
Import ListNotations.
Open Scope R_scope.

(** * C155 the window of error_comparison *)
Lemma cross_perm_svd : forall D, Permutation cross_data D ->
  is_svd D (map (fun p => V3 (vx p / sqrt 24) (vy p / sqrt (25/2)) (vz p / sqrt 2)) D) cross_s mid.
Proof.
  intros D P. pose proof cross_svd as C. unfold cross_U in C.
  assert (PM := Permutation_map (fun p => V3 (vx p / sqrt 24) (vy p / sqrt (25/2)) (vz p / sqrt 2)) P).
  assert (P0 : 0 < sqrt 24) by (apply sqrt_lt_R0; lra). assert (P1 : 0 < sqrt (25/2)) by (apply sqrt_lt_R0; lra). assert (P2 : 0 < sqrt 2) by (apply sqrt_lt_R0; lra).
  destruct C. constructor; auto; try (rewrite <- (sumf_perm _ _ _ _ PM); assumption).
  rewrite map_map. rewrite <- (map_id D) at 1. apply map_ext. intros p. unfold cross_s. apply vec3_eq; munf; field; lra.
Qed.
Lemma cross_perm_fit : forall D, Permutation cross_data D -> exists svd f, lapack svd /\ PCAOrientation svd D None None = Ok f /\ rotated f = D.
Proof.
  intros D P. set (U := map (fun p => V3 (vx p / sqrt 24) (vy p / sqrt (25/2)) (vz p / sqrt 2)) D).
  set (svd := svd_override D (U, cross_s, mid) svd_ref).
  assert (L : lapack svd) by (apply svd_override_ok; [exact lapack_ref|exact (cross_perm_svd D P)]).
  assert (LD : length D = 10%nat) by (rewrite <- (Permutation_length P); reflexivity).
  assert (CC : centered D = D).
  { apply centered_id; [intros ->; discriminate|]. unfold vsum. rewrite <- !(sumf_perm _ _ _ _ P).
    unfold cross_data. apply vec3_eq; cbn [sumf fold_right map vx vy vz vzero]; lra. }
  destruct (fit_exists svd D L) as [f F]; [lia|]. exists svd, f. split; [auto|]. split; [auto|].
  assert (AX : p_axes f = mid).
  { assert (F' := F). unfold PCAOrientation, run_svd in F'. rewrite CC, LD in F'.
    change (10 <? 3)%nat with false in F'. rewrite has_zero_ones, vdiv_ones in F'. unfold svd, svd_override in F'.
    destruct (list_eq_dec vec3_eq_dec D D) as [_|h]; [|congruence]. cbn [rbind] in F'. apply (f_equal (fun r => match r with Ok g => p_axes g | _ => mid end)) in F'. cbn [p_axes] in F'. auto. }
  destruct (fit_inv _ _ _ L F) as (_ & u & m & _ & _ & _ & EA & _). rewrite CC in EA.
  unfold rotated. rewrite AX, EA. rewrite <- (map_id D) at 2. apply map_ext. intros p. apply vec3_eq; munf; ring.
Qed.
(** the first point, and only it, is sure to be inside *)
Theorem C155_first : forall A w, comparison_half_width A = Ok w ->
  0 <= w /\ forall p, nth_error A 0 = Some p -> Rabs (vy p) <= w.
Proof.
  intros [|v A] w H; cbn [comparison_half_width] in H; [discriminate|]. injection H as <-.
  pose proof (Rabs_pos (vx v)). pose proof (Rabs_pos (vy v)). pose proof (Rabs_pos (vz v)).
  pose proof (Rmax_l (Rabs (vx v)) (Rabs (vy v))). pose proof (Rmax_r (Rabs (vx v)) (Rabs (vy v))).
  pose proof (Rmax_l (Rmax (Rabs (vx v)) (Rabs (vy v))) (Rabs (vz v))). split; [lra|]. intros p E. injection E as <-. lra.
Qed.
(** the same points in another order: in one window all are shown, in the other not *)
Theorem C155_window_refuted : exists svd svd' arr arr' f f' w w', lapack svd /\ lapack svd' /\ Permutation arr arr' /\
  PCAOrientation svd arr None None = Ok f /\ PCAOrientation svd' arr' None None = Ok f' /\
  comparison_half_width (rotated f) = Ok w /\ comparison_half_width (rotated f') = Ok w' /\
  (forall p, In p (rotated f) -> Rabs (vy p) <= w) /\ (exists p, In p (rotated f') /\ w' < Rabs (vy p)).
Proof.
  set (D := V3 0 0 1 :: [V3 2 0 0; V3 (-2) 0 0; V3 2 0 0; V3 (-2) 0 0; V3 2 0 0; V3 (-2) 0 0; V3 0 (5/2) 0; V3 0 (-5/2) 0] ++ [V3 0 0 (-1)]).
  assert (P : Permutation cross_data D) by (unfold D; apply Permutation_sym, (Permutation_middle [V3 2 0 0; V3 (-2) 0 0; V3 2 0 0; V3 (-2) 0 0; V3 2 0 0; V3 (-2) 0 0; V3 0 (5/2) 0; V3 0 (-5/2) 0])).
  destruct (cross_perm_fit cross_data (Permutation_refl _)) as (svd & f & L & F & R).
  destruct (cross_perm_fit D P) as (svd' & f' & L' & F' & R').
  exists svd, svd', cross_data, D, f, f', (25 / 10 * 2 / 2), (25 / 10 * 1 / 2).
  split; [auto|]. split; [auto|]. split; [auto|]. split; [auto|]. split; [auto|]. rewrite R, R'.
  assert (A0 : Rabs 0 = 0) by apply Rabs_R0. assert (A1 : Rabs 1 = 1) by (apply Rabs_right; lra). assert (A2 : Rabs 2 = 2) by (apply Rabs_right; lra).
  split; [unfold cross_data, comparison_half_width; cbn [vx vy vz]; rewrite A0, A2, (Rmax_left 2 0), (Rmax_left 2 0) by lra; reflexivity|].
  split; [unfold D, comparison_half_width; cbn [vx vy vz]; rewrite A0, A1, (Rmax_left 0 0), (Rmax_right 0 1) by lra; reflexivity|]. split.
  - intros p I. unfold cross_data in I. cbn [In] in I. apply Rabs_le. repeat (destruct I as [<-|I]; [cbn [vy]; lra|]). destruct I.
  - exists (V3 0 (5/2) 0). split; [unfold D; cbn [In app]; tauto|]. cbn [vy]. rewrite Rabs_right; lra.
Qed.

(** * C156 bands of 2-D covariances *)
(** a hyperbola about a centre with one row of [ax] along and one across *)
Definition on_band (c0 c1 n level : R) (ax : mat2) (m p : R * R) : Prop :=
  let '((a, b), (c, d)) := ax in
  let x := a * (fst p - fst m) + b * (snd p - snd m) in let y := c * (fst p - fst m) + d * (snd p - snd m) in
  y * y * n * c0 = level * level * c1 * (x * x + c0).
Definition rotation2 (ax : mat2) : Prop :=
  let '((a, b), (c, d)) := ax in a * a + b * b = 1 /\ c * c + d * d = 1 /\ a * c + b * d = 0.
Lemma cov_value : forall c0 c1 ax m xs n level, 0 < c0 -> 0 <= c1 -> 0 < n ->
  cov_hyperbola (c0, c1) ax m xs n level =
  let y x := level * sqrt c1 * sqrt (x * x / (c0 * n) + 1 / n) in
  Some (map (fun x => fst (vmul2 (x, y x) ax) + fst m) xs, map (fun x => snd (vmul2 (x, - y x) ax) + snd m) xs, map (fun x => snd (vmul2 (x, y x) ax) + snd m) xs).
Proof.
  intros c0 c1 ax m xs n level H0 H1 N. unfold cov_hyperbola, fsqrt. cbn [fst snd].
  destruct (Rlt_dec c0 0); [lra|]. destruct (Rlt_dec c1 0); [lra|]. cbn [obind]. rewrite sqrt_sqrt by lra.
  destruct (Req_EM_T (c0 * n) 0); [nra|]. destruct (Req_EM_T n 0); [lra|]. destruct (Rlt_dec n 0); [lra|].
  rewrite !map_map. cbn [fst snd]. reflexivity.
Qed.
Lemma width_sq : forall c0 c1 n level x, 0 < c0 -> 0 <= c1 -> 0 < n ->
  let y := level * sqrt c1 * sqrt (x * x / (c0 * n) + 1 / n) in y * y * n * c0 = level * level * c1 * (x * x + c0).
Proof.
  intros c0 c1 n level x H0 H1 N y.
  assert (P : 0 <= x * x / (c0 * n) + 1 / n).
  { apply Rplus_le_le_0_compat; apply Rmult_le_pos; try nra; left; apply Rinv_0_lt_compat; nra. }
  assert (S1 : sqrt c1 * sqrt c1 = c1) by (apply sqrt_sqrt; auto). assert (S2 := sqrt_sqrt _ P).
  unfold y. set (r := sqrt c1) in *. set (s := sqrt (x * x / (c0 * n) + 1 / n)) in *.
  transitivity (level * level * (r * r) * (s * s) * n * c0); [ring|]. rewrite S1, S2. field. lra.
Qed.
(** the top of the band is on the hyperbola, whatever the rotation; the bottom is when the
    second axis has no component along the first coordinate *)
Theorem C156_band : forall c0 c1 ax m xs n level, 0 < c0 -> 0 <= c1 -> 0 < n -> rotation2 ax ->
  exists X B T, cov_hyperbola (c0, c1) ax m xs n level = Some (X, B, T) /\ length X = length xs /\ length B = length xs /\ length T = length xs /\
  forall i, (i < length xs)%nat ->
    on_band c0 c1 n level ax m (nth i X 0, nth i T 0) /\
    (fst (snd ax) = 0 -> on_band c0 c1 n level ax m (nth i X 0, nth i B 0)) /\
    (ax = ((1, 0), (0, 1)) -> nth i X 0 = nth i xs 0 + fst m /\ nth i B 0 + nth i T 0 = 2 * snd m /\ (0 <= level -> nth i B 0 <= snd m <= nth i T 0)).
Proof.
  intros c0 c1 [[a b] [c d]] m xs n level H0 H1 N (A & C & O). eexists. eexists. eexists. split; [rewrite cov_value by auto; reflexivity|].
  rewrite !map_length. split; [auto|]. split; [auto|]. split; [auto|]. intros i I.
  assert (NM : forall f, nth i (map f xs) 0 = f (nth i xs 0)) by (intros f; rewrite (nth_indep _ 0 (f 0)) by (rewrite map_length; auto); apply map_nth).
  rewrite !NM. set (x := nth i xs 0). pose proof (width_sq c0 c1 n level x H0 H1 N) as W. cbv zeta in W. set (y := level * sqrt c1 * sqrt (x * x / (c0 * n) + 1 / n)) in *.
  unfold on_band, vmul2. cbn [fst snd]. split; [|split].
  - replace (a * (x * a + y * c + fst m - fst m) + b * (x * b + y * d + snd m - snd m)) with (x * (a * a + b * b) + y * (a * c + b * d)) by ring.
    replace (c * (x * a + y * c + fst m - fst m) + d * (x * b + y * d + snd m - snd m)) with (x * (a * c + b * d) + y * (c * c + d * d)) by ring.
    rewrite A, C, O. transitivity (y * y * n * c0); [ring|]. rewrite W. ring.
  - intros E. subst c. assert (D1 : d * d = 1) by lra. assert (B0 : b = 0) by nra. subst b.
    transitivity (y * y * n * c0 * (d * d * (d * d))); [ring|]. rewrite D1, W.
    transitivity (level * level * c1 * (x * x * ((a * a + 0 * 0) * (a * a + 0 * 0)) + c0)); [rewrite A; ring|ring].
  - intros E. injection E as -> -> -> ->. split; [ring|]. split; [ring|]. intros LV.
    assert (0 <= y). { unfold y. repeat apply Rmult_le_pos; auto; apply sqrt_pos. } lra.
Qed.
(** with another rotation the bottom is drawn at the abscissae of the top, off the band *)
Theorem C156_bottom_refuted : exists c0 c1 ax m xs n level X B T, 0 < c0 /\ 0 < c1 /\ 0 < n /\ rotation2 ax /\
  cov_hyperbola (c0, c1) ax m xs n level = Some (X, B, T) /\ exists i, (i < length xs)%nat /\ ~ on_band c0 c1 n level ax m (nth i X 0, nth i B 0).
Proof.
  exists 1, 1, ((4/5, 3/5), (-3/5, 4/5)), (0, 0), [0], 1, 1. rewrite cov_value by lra. cbv zeta. cbn [map fst snd vmul2].
  assert (S1 : sqrt 1 = 1) by apply sqrt_1. replace (0 * 0 / (1 * 1) + 1 / 1) with 1 by field. rewrite S1.
  eexists. eexists. eexists. split; [lra|]. split; [lra|]. split; [lra|]. split; [unfold rotation2; repeat split; lra|]. split; [reflexivity|].
  exists 0%nat. split; [cbn [length]; lia|]. cbn [nth]. unfold on_band. cbn [fst snd]. lra.
Qed.

(** ** the formula of the repository's tests *)
Lemma simple_value : forall c0 c1 xs n level, 0 < c0 -> 0 <= c1 -> 0 < n ->
  simple_hyperbola (c0, c1) xs n level = Some (xs, map (fun x => level * sqrt c1 * sqrt (x * x / (c0 * n) + 1 / n)) xs).
Proof.
  intros c0 c1 xs n level H0 H1 N. unfold simple_hyperbola, fsqrt. cbn [fst snd]. destruct (Rlt_dec c1 0); [lra|]. cbn [obind].
  destruct (Req_EM_T (c0 * n) 0); [nra|]. destruct (Req_EM_T n 0); [lra|].
  assert (F : forallb (fun x => if Rlt_dec (x * x / (c0 * n) + 1 / n) 0 then false else true) xs = true).
  { apply forallb_forall. intros x _. destruct (Rlt_dec _ 0) as [X|X]; [|reflexivity]. exfalso.
    assert (0 <= x * x / (c0 * n) + 1 / n); [|lra]. apply Rplus_le_le_0_compat; apply Rmult_le_pos; try nra; left; apply Rinv_0_lt_compat; nra. }
  rewrite F. reflexivity.
Qed.
(** what test_sampling_covariance, test_hyperbolic_simple, test_hyperbolic_projection and
    test_minimum_variation check on one random fit *)
Theorem C156_simple : forall c0 c1 xs n level, 0 < c0 -> 0 <= c1 -> 0 < n ->
  exists ys, simple_hyperbola (c0, c1) xs n level = Some (xs, ys) /\
    cov_hyperbola (c0, c1) ((1, 0), (0, 1)) (0, 0) xs n level = Some (xs, map Ropp ys, ys) /\
    (0 <= level -> simple_hyperbola (c0, c1 * (level * level) / n) xs 1 1 = Some (xs, ys)).
Proof.
  intros c0 c1 xs n level H0 H1 N. rewrite simple_value by auto. eexists. split; [reflexivity|]. split.
  - rewrite cov_value by auto. cbv zeta. cbn [vmul2 fst snd]. rewrite map_map. f_equal. apply f_equal2; [apply f_equal2|].
    + rewrite <- (map_id xs) at 2. apply map_ext. intros. ring.
    + apply map_ext. intros. ring.
    + apply map_ext. intros. ring.
  - intros LV. assert (K : 0 <= c1 * (level * level) / n) by (apply Rmult_le_pos; [nra|left; now apply Rinv_0_lt_compat]).
    rewrite simple_value by (auto; lra). do 2 f_equal. apply map_ext. intros x.
    assert (P : 0 <= x * x / (c0 * 1) + 1 / 1) by (apply Rplus_le_le_0_compat; [apply Rmult_le_pos; [nra|left; apply Rinv_0_lt_compat; nra]|lra]).
    replace (x * x / (c0 * n) + 1 / n) with ((x * x / (c0 * 1) + 1 / 1) / n) by (field; lra).
    set (w := x * x / (c0 * 1) + 1 / 1) in *. clearbody w. unfold Rdiv. assert (IN : 0 < / n) by now apply Rinv_0_lt_compat.
    rewrite !sqrt_mult by (nra || lra). rewrite (sqrt_sqrt level) by auto. ring.
Qed.
Theorem C156_projection : forall inv h a x y, numpy_inv inv -> 0 < vx h -> 0 < vy h -> 0 < vz h -> a = ex \/ a = ey ->
  (band inv h a x y <-> simple_hyperbola (dot a h, vz h) [x] 1 1 = Some ([x], [y])).
Proof.
  intros inv h a x y HI H0 H1 H2 A. set (hx := dot a h).
  assert (C : a = ex /\ hx = vx h \/ a = ey /\ hx = vy h) by (unfold hx; destruct A as [->| ->]; [left|right]; (split; [auto|]); vunf; ring).
  assert (HX : 0 < hx) by (destruct C as [[_ ->]|[_ ->]]; auto).
  rewrite (band_width inv h a hx HI H0 H1 H2 C), simple_value by lra. cbn [map].
  set (z := 1 * sqrt (vz h) * sqrt (x * x / (hx * 1) + 1 / 1)).
  assert (ZP : 0 < z). { unfold z. rewrite Rmult_1_l. apply Rmult_lt_0_compat; apply sqrt_lt_R0; auto. apply Rplus_le_lt_0_compat; [apply Rmult_le_pos; [nra|left; apply Rinv_0_lt_compat; lra]|lra]. }
  assert (ZZ : z * z = vz h + sqrt (vz h) / sqrt hx * x * (sqrt (vz h) / sqrt hx * x)).
  { pose proof (width_sq hx (vz h) 1 1 x HX ltac:(lra) ltac:(lra)) as W. cbv zeta in W. fold z in W.
    pose proof (sqrt_lt_R0 _ HX) as SX. assert (S1 : sqrt hx * sqrt hx = hx) by (apply sqrt_sqrt; lra). assert (S2 : sqrt (vz h) * sqrt (vz h) = vz h) by (apply sqrt_sqrt; lra).
    transitivity (vz h * (x * x + hx) / hx).
    - apply (Rmult_eq_reg_r hx); [|lra]. transitivity (1 * 1 * vz h * (x * x + hx)); [rewrite <- W; ring|field; lra].
    - transitivity (vz h + sqrt (vz h) * sqrt (vz h) * (x * x) / (sqrt hx * sqrt hx)); [rewrite S1, S2; field; lra|field; lra]. }
  split.
  - intros [Y E]. rewrite <- ZZ in E. replace y with z by (apply Rsqr_inj; unfold Rsqr; lra). reflexivity.
  - intros E. injection E as <-. auto.
Qed.
(** what the second test_sampling_covariance computes but does not assert is false *)
Theorem C156_unasserted : forall st svd arr f ev hyp z, lapack svd -> PCAOrientation svd arr None None = Ok f ->
  eigenvalues f = Some ev -> 0 < vx ev -> f_ppf st (95/100) 2 (n_of f - 2) = Some z -> 0 < z -> z * z <> 2 * (n_of f - 1) ->
  sampling_axes st f = Some hyp -> vx hyp <> vx ev.
Proof.
  intros st svd arr f ev hyp z L F EV EP Z ZP ZN E. unfold sampling_axes, statistical_axes in E. rewrite EV in E. cbn [obind k_method k_chisq k_all_axes k_confidence k_dof] in E.
  unfold sampling_covariance in E. rewrite EV in E. cbn [obind] in E. unfold fdiv in E.
  assert (NP : 0 < n_of f - 1).
  { destruct (fit_inv _ _ _ L F) as (Hn & _ & _ & _ & _ & _ & _ & _ & _ & EN & _). unfold n_of. rewrite EN. assert (INR 3 <= INR (length arr)) by now apply le_INR. cbn [INR] in *. lra. }
  destruct (Req_EM_T (n_of f - 1) 0); [lra|]. cbn [obind] in E. unfold fisher_statistic in E. rewrite Z in E. cbn [obind] in E.
  set (k := 2 / (n_of f - 1)) in *. assert (KP : 0 < k) by (apply Rdiv_lt_0_compat; lra).
  unfold vsqrt, fsqrt in E. cbn [vx vy vz vscale vmul] in E.
  destruct (Rlt_dec (k * (vx ev * vx ev)) 0) as [X|X]; [nra|]. destruct (Rlt_dec (k * (vy ev * vy ev)) 0) as [Y|Y]; [nra|]. destruct (Rlt_dec (k * (vz ev * vz ev)) 0) as [W|W]; [nra|].
  cbn [obind] in E. unfold apply_error_scaling in E. cbn [obind] in E. apply (f_equal (fun o => match o with Some x => vx x | None => 0 end)) in E.
  cbn [vabs vsub vscale vx vy vz] in E. rewrite <- E. rewrite sqrt_mult by nra. rewrite sqrt_square by lra.
  replace (vx ev - z * (sqrt k * vx ev)) with ((1 - z * sqrt k) * vx ev) by ring. rewrite Rabs_mult, (Rabs_right (vx ev)) by lra.
  intros H. pose proof (sqrt_lt_R0 _ KP) as SK. assert (S2 : sqrt k * sqrt k = k) by (apply sqrt_sqrt; lra).
  assert (A : Rabs (1 - z * sqrt k) = 1) by nra. assert (0 < z * sqrt k) by nra.
  assert (T : z * sqrt k = 2). { unfold Rabs in A. destruct (Rcase_abs _); lra. }
  apply ZN. assert (Q : z * z * k = 4) by (rewrite <- S2; transitivity (z * sqrt k * (z * sqrt k)); [ring|rewrite T; ring]).
  transitivity (z * z * k * (n_of f - 1) / 2); [unfold k; field; lra|rewrite Q; field].
Qed.

(** * C157 percentiles *)
(** the broken line through the order statistics *)
Definition order_line (s : list R) (t : R) : R :=
  let i := Z.to_nat (Int_part t) in nth i s 0 + (t - INR i) * (nth (S i) s 0 - nth i s 0).
Lemma Int_part_IZR : forall z, Int_part (IZR z) = z.
Proof.
  intros z. destruct (base_Int_part (IZR z)) as [A B]. apply le_IZR in A.
  assert (z < Int_part (IZR z) + 1)%Z by (apply lt_IZR; rewrite plus_IZR; lra). lia.
Qed.
Lemma floor_nat : forall t, 0 <= t -> INR (Z.to_nat (Int_part t)) <= t < INR (Z.to_nat (Int_part t)) + 1.
Proof.
  intros t T. destruct (base_Int_part t) as [A B].
  assert (Z0 : (0 <= Int_part t)%Z). { assert (-1 < IZR (Int_part t)) by lra. apply lt_IZR in H. lia. }
  rewrite INR_IZR_INZ, Z2Nat.id by auto. lra.
Qed.
Lemma score_value : forall s p, s <> [] -> 0 <= p <= 100 -> score_at s p = Ok (order_line s (p / 100 * INR (length s - 1))).
Proof.
  intros s p NE P. unfold score_at. destruct (Rlt_dec p 0); [lra|]. destruct (Rlt_dec 100 p); [lra|].
  destruct s as [|a s']; [congruence|]. set (s := a :: s') in *. set (t := p / 100 * INR (length s - 1)).
  unfold order_line. set (i := Z.to_nat (Int_part t)). destruct (Req_EM_T (t - INR i) 0) as [E|E].
  - rewrite E. f_equal. ring.
  - f_equal. rewrite S_INR. field. lra.
Qed.
Lemma sorted_nth : forall s i j, Sorted Rle s -> (i <= j)%nat -> (j < length s)%nat -> nth i s 0 <= nth j s 0.
Proof.
  intros s i j H. apply Sorted_StronglySorted in H; [|intros x y z; apply Rle_trans]. revert i j.
  induction H as [|a l SS IH FA]; intros i j IJ J; [cbn in J; lia|]. destruct i as [|i], j as [|j]; cbn [nth]; try lia; try lra.
  - rewrite Forall_forall in FA. apply FA. apply nth_In. cbn [length] in J. lia.
  - apply IH; cbn [length] in J; lia.
Qed.
Lemma order_line_step : forall s t, Sorted Rle s -> s <> [] -> 0 <= t <= INR (length s - 1) ->
  let i := Z.to_nat (Int_part t) in (i < length s)%nat /\ nth i s 0 <= order_line s t /\
  ((S i < length s)%nat -> order_line s t <= nth (S i) s 0) /\ ((S i = length s)%nat -> order_line s t = nth i s 0).
Proof.
  intros s t H NE T i. destruct (floor_nat t ltac:(lra)) as [A B]. fold i in A, B.
  assert (I : (i <= length s - 1)%nat) by (apply INR_le; lra). assert (L : (0 < length s)%nat) by (destruct s; [congruence|cbn; lia]).
  unfold order_line. fold i. split; [lia|].
  destruct (Nat.eq_dec (S i) (length s)) as [E|E].
  - assert (t = INR i) by (replace (length s - 1)%nat with i in T by lia; lra). rewrite H0, Rminus_diag_eq by auto.
    repeat split; try lia; lra.
  - pose proof (sorted_nth s i (S i) H ltac:(lia) ltac:(lia)) as M. repeat split; try lia; nra.
Qed.
Lemma order_line_mono : forall s t t', Sorted Rle s -> s <> [] -> 0 <= t <= t' -> t' <= INR (length s - 1) -> order_line s t <= order_line s t'.
Proof.
  intros s t t' H NE T T'. destruct (order_line_step s t H NE ltac:(lra)) as (I & A & B & _). destruct (order_line_step s t' H NE ltac:(lra)) as (I' & A' & B' & C').
  destruct (floor_nat t ltac:(lra)) as [F G]. destruct (floor_nat t' ltac:(lra)) as [F' G'].
  set (i := Z.to_nat (Int_part t)) in *. set (i' := Z.to_nat (Int_part t')) in *.
  assert (II : (i <= i')%nat) by (apply Nat.lt_succ_r, INR_lt; rewrite S_INR; lra).
  destruct (Nat.eq_dec i i') as [E|E].
  - unfold order_line. fold i i'. rewrite <- E in *. destruct (Nat.eq_dec (S i) (length s)) as [K|K].
    + assert (t' = INR i) by (replace (length s - 1)%nat with i in T' by lia; lra). assert (t = INR i) by lra. subst t'. nra.
    + pose proof (sorted_nth s i (S i) H ltac:(lia) ltac:(lia)). nra.
  - specialize (B ltac:(lia)). pose proof (sorted_nth s (S i) i' H ltac:(lia) ltac:(lia)). lra.
Qed.
Lemma scaled_index : forall p n, 0 <= p <= 100 -> 0 <= p / 100 * INR n <= INR n.
Proof. intros p n P. pose proof (pos_INR n). split; [apply Rmult_le_pos; lra|]. assert (p / 100 <= 1) by lra. nra. Qed.

(** a percentile lies between the extremes, grows with the percentage, and is an extreme at
    either end; outside 0 to 100 it is an error *)
Theorem C157_percentile : forall s, Sorted Rle s -> s <> [] ->
  (forall p, (exists v, score_at s p = Ok v) <-> 0 <= p <= 100) /\
  (forall p, ~ 0 <= p <= 100 -> score_at s p = Raise ValueError) /\
  (forall p v, score_at s p = Ok v -> (exists a, In a s /\ a <= v) /\ (exists b, In b s /\ v <= b)) /\
  (forall p q v w, score_at s p = Ok v -> score_at s q = Ok w -> p <= q -> v <= w) /\
  score_at s 0 = Ok (hd 0 s) /\ score_at s 100 = Ok (last s 0).
Proof.
  intros s H NE. assert (L : (0 < length s)%nat) by (destruct s; [congruence|cbn; lia]).
  assert (DOM : forall p v, score_at s p = Ok v -> 0 <= p <= 100).
  { intros p v E. unfold score_at in E. destruct (Rlt_dec p 0); [discriminate|]. destruct (Rlt_dec 100 p); [discriminate|]. lra. }
  split; [|split; [|split; [|split; [|split]]]].
  - intros p. split; [intros [v E]; eauto|]. intros P. rewrite score_value by auto. eauto.
  - intros p P. unfold score_at. destruct (Rlt_dec p 0); [auto|]. destruct (Rlt_dec 100 p); [auto|]. lra.
  - intros p v E. pose proof (DOM _ _ E) as P. rewrite score_value in E by auto. injection E as <-.
    destruct (order_line_step s _ H NE (scaled_index p _ P)) as (I & A & B & C). set (i := Z.to_nat _) in *.
    split; [exists (nth i s 0); split; [now apply nth_In|auto]|].
    destruct (Nat.eq_dec (S i) (length s)) as [K|K]; [exists (nth i s 0); split; [now apply nth_In|rewrite (C K); lra]|].
    exists (nth (S i) s 0). split; [apply nth_In; lia|apply B; lia].
  - intros p q v w E F PQ. pose proof (DOM _ _ E) as P. pose proof (DOM _ _ F) as Q. rewrite score_value in E, F by auto. injection E as <-. injection F as <-.
    pose proof (scaled_index p (length s - 1) P). pose proof (scaled_index q (length s - 1) Q). pose proof (pos_INR (length s - 1)).
    apply order_line_mono; auto; [|lra]. split; [lra|]. apply Rmult_le_compat_r; lra.
  - rewrite score_value by (auto; lra). f_equal. replace (0 / 100 * INR (length s - 1)) with (IZR 0) by lra.
    unfold order_line. rewrite Int_part_IZR. cbn [Z.to_nat INR]. destruct s; [congruence|]. cbn [nth hd]. ring.
  - rewrite score_value by (auto; lra). f_equal. replace (100 / 100 * INR (length s - 1)) with (INR (length s - 1)) by field. unfold order_line.
    rewrite INR_IZR_INZ, Int_part_IZR, Nat2Z.id, <- INR_IZR_INZ. rewrite Rminus_diag_eq by auto. rewrite Rmult_0_l, Rplus_0_r.
    symmetry. clear - NE. destruct (exists_last NE) as (l & a & ->). rewrite last_last, app_length. cbn [length]. rewrite app_nth2 by lia.
    replace (length l + 1 - 1 - length l)%nat with 0%nat by lia. reflexivity.
Qed.
(** the k-th of the sorted values, k counted from 0, is at 100 k / (number - 1); between
    two of them it is on the straight line *)
Theorem C157_value : forall s k w, (S k < length s)%nat -> 0 <= w <= 1 ->
  score_at s (100 * (INR k + w) / INR (length s - 1)) = Ok ((1 - w) * nth k s 0 + w * nth (S k) s 0).
Proof.
  intros s k w K W. assert (N : 0 < INR (length s - 1)) by (apply lt_0_INR; lia). assert (I : INR k + w <= INR (length s - 1)).
  { assert (INR (S k) <= INR (length s - 1)) by (apply le_INR; lia). rewrite S_INR in H. lra. }
  pose proof (pos_INR k) as K0. set (p := 100 * (INR k + w) / INR (length s - 1)). assert (PE : p / 100 * INR (length s - 1) = INR k + w) by (unfold p; field; lra).
  assert (P : 0 <= p <= 100).
  { split; [apply Rmult_le_pos; [lra|left; now apply Rinv_0_lt_compat]|]. assert (p * INR (length s - 1) = 100 * (INR k + w)) by (unfold p; field; lra). apply (Rmult_le_reg_r (INR (length s - 1))); lra. }
  rewrite score_value; [|destruct s; [cbn in K; lia|discriminate]|auto]. rewrite PE. f_equal. unfold order_line.
  destruct (Req_EM_T w 1) as [->|W1].
  - replace (INR k + 1) with (IZR (Z.of_nat (S k))) by (rewrite <- INR_IZR_INZ, S_INR; reflexivity). rewrite Int_part_IZR, Nat2Z.id, <- INR_IZR_INZ. ring.
  - assert (E : Int_part (INR k + w) = Z.of_nat k).
    { destruct (base_Int_part (INR k + w)) as [A B]. set (z := Int_part (INR k + w)) in *. rewrite INR_IZR_INZ in A, B.
      assert (z < Z.of_nat k + 1)%Z by (apply lt_IZR; rewrite plus_IZR; lra). assert (Z.of_nat k < z + 1)%Z by (apply lt_IZR; rewrite plus_IZR; lra). lia. }
    rewrite E, Nat2Z.id. ring.
Qed.
(** rescaling and shifting the data rescales and shifts the percentile *)
Theorem C157_affine : forall s p k c v, s <> [] -> score_at s p = Ok v -> score_at (map (fun x => k * x + c) s) p = Ok (k * v + c).
Proof.
  intros s p k c v NE E. assert (P : 0 <= p <= 100). { unfold score_at in E. destruct (Rlt_dec p 0); [discriminate|]. destruct (Rlt_dec 100 p); [discriminate|]. lra. }
  rewrite score_value in E by auto. injection E as <-. rewrite score_value; [|destruct s; [congruence|discriminate]|auto]. rewrite map_length. f_equal.
  set (n := length s). assert (L : (0 < n)%nat) by (unfold n; destruct s; [congruence|cbn; lia]).
  pose proof (scaled_index p (n - 1) P) as T. set (t := p / 100 * INR (n - 1)) in *. unfold order_line.
  destruct (floor_nat t ltac:(lra)) as [A B]. set (i := Z.to_nat (Int_part t)) in *. assert (I : (i <= n - 1)%nat) by (apply INR_le; lra).
  assert (NM : forall j, (j < n)%nat -> nth j (map (fun x => k * x + c) s) 0 = k * nth j s 0 + c).
  { intros j J. rewrite (nth_indep _ 0 (k * 0 + c)) by now rewrite map_length. apply (map_nth (fun x => k * x + c)). }
  rewrite NM by lia. destruct (Nat.eq_dec (S i) n) as [K|K].
  - assert (t - INR i = 0) as -> by (replace (n - 1)%nat with i in T by lia; lra). ring.
  - rewrite NM by lia. ring.
Qed.
(** confidence intervals: ordered, containing the median, nested; a negative percentage
    gives the ends in the other order *)
Theorem C157_interval : forall s, Sorted Rle s -> s <> [] ->
  (forall which, (exists r, ci s which = Ok r) <-> -100 <= which <= 100) /\
  (forall which, ~ -100 <= which <= 100 -> ci s which = Raise ValueError) /\
  (forall which lo hi med, ci s which = Ok (lo, hi) -> score_at s 50 = Ok med -> 0 <= which ->
     lo <= med <= hi /\ (exists a, In a s /\ a <= lo) /\ (exists b, In b s /\ hi <= b) /\ ci s (- which) = Ok (hi, lo)) /\
  (forall w w' lo hi lo' hi', ci s w = Ok (lo, hi) -> ci s w' = Ok (lo', hi') -> w <= w' -> lo' <= lo /\ hi <= hi') /\
  ci s 100 = Ok (hd 0 s, last s 0).
Proof.
  intros s H NE. destruct (C157_percentile s H NE) as (DOM & ERR & EXT & MON & E0 & E1).
  assert (INV : forall w lo hi, ci s w = Ok (lo, hi) -> score_at s (50 - w / 2) = Ok lo /\ score_at s (50 + w / 2) = Ok hi).
  { intros w lo hi E. unfold ci in E. destruct (score_at s (50 - w / 2)) as [l| |]; try discriminate. cbn [rbind] in E.
    destruct (score_at s (50 + w / 2)) as [u| |]; try discriminate. cbn [rbind] in E. injection E as <- <-. auto. }
  split; [|split; [|split; [|split]]].
  - intros w. split.
    + intros [[lo hi] E]. destruct (INV _ _ _ E) as [A B]. assert (0 <= 50 - w / 2 <= 100) by (apply DOM; eauto). assert (0 <= 50 + w / 2 <= 100) by (apply DOM; eauto). lra.
    + intros W. unfold ci. destruct (proj2 (DOM (50 - w / 2)) ltac:(lra)) as [l ->]. destruct (proj2 (DOM (50 + w / 2)) ltac:(lra)) as [u ->]. cbn [rbind]. eauto.
  - intros w W. unfold ci. rewrite ERR by lra. reflexivity.
  - intros w lo hi med E M W. destruct (INV _ _ _ E) as [A B]. split; [split; [eapply MON; [exact A|exact M|lra]|eapply MON; [exact M|exact B|lra]]|].
    split; [now apply (EXT _ _ A)|]. split; [now apply (EXT _ _ B)|]. unfold ci. replace (50 - - w / 2) with (50 + w / 2) by field. replace (50 + - w / 2) with (50 - w / 2) by field. rewrite A, B. reflexivity.
  - intros w w' lo hi lo' hi' E E' W. destruct (INV _ _ _ E) as [A B]. destruct (INV _ _ _ E') as [A' B']. split; [eapply MON; [exact A'|exact A|lra]|eapply MON; [exact B|exact B'|lra]].
  - unfold ci. replace (50 - 100 / 2) with 0 by field. replace (50 + 100 / 2) with 100 by field. rewrite E0, E1. reflexivity.
Qed.

(** * C158 resampling *)
(** every sample has as many rows as the data, all of them rows of the data *)
Theorem C158_resampled : forall A B (draw : nat -> nat -> nat) (data : list A) d (func : list A -> B) n,
  (forall i j, (j < length data)%nat -> (draw i j < length data)%nat) ->
  (data = [] -> (0 < n)%nat -> bootstrap_resampled draw data d func n = Raise ValueError) /\
  (data <> [] -> exists r, bootstrap_resampled draw data d func n = Ok r /\ length r = n /\
     forall b, In b r -> exists s, b = func s /\ length s = length data /\ incl s data).
Proof.
  intros A B draw data d func n D. split.
  - intros -> N. destruct n; [lia|reflexivity].
  - intros NE. destruct n as [|n].
    + exists []. split; [destruct data; reflexivity|]. split; [reflexivity|]. intros b [].
    + unfold bootstrap_resampled. destruct data as [|a data']; [congruence|]. set (data := a :: data') in *. eexists. split; [reflexivity|].
      split; [now rewrite map_length, seq_length|]. intros b I. apply in_map_iff in I. destruct I as (i & <- & _). eexists. split; [reflexivity|].
      split; [now rewrite map_length, seq_length|]. intros x J. apply in_map_iff in J. destruct J as (j & <- & J). apply in_seq in J. apply nth_In. apply D. lia.
Qed.
(** so a confidence interval for a statistic stays within the bounds of the statistic *)
Theorem C158_interval : forall A draw (data : list A) d (func : list A -> R) n m M r s lo hi which,
  (forall i j, (j < length data)%nat -> (draw i j < length data)%nat) -> data <> [] -> (0 < n)%nat ->
  (forall x, length x = length data -> incl x data -> m <= func x <= M) ->
  bootstrap_resampled draw data d func n = Ok r -> Permutation r s -> Sorted Rle s -> ci s which = Ok (lo, hi) -> 0 <= which ->
  m <= lo <= hi /\ hi <= M.
Proof.
  intros A draw data d func n m M r s lo hi which D NE N BD E PS SS C W.
  destruct (C158_resampled _ _ draw data d func n D) as [_ H]. destruct (H NE) as (r' & E' & LR & AL). rewrite E in E'. injection E' as <-.
  assert (NS : s <> []). { intros ->. apply Permutation_sym, Permutation_nil in PS. subst r. cbn in LR. lia. }
  assert (BS : forall x, In x s -> m <= x <= M). { intros x I. apply (Permutation_in x (Permutation_sym PS)) in I. destruct (AL x I) as (y & -> & L1 & L2). auto. }
  destruct (C157_percentile s SS NS) as (DOM & _). destruct (proj2 (DOM 50) ltac:(lra)) as [med EM].
  destruct (C157_interval s SS NS) as (_ & _ & K & _). destruct (K which lo hi med C EM W) as (MM & (a & IA & LA) & (b & IB & LB) & _).
  pose proof (BS a IA). pose proof (BS b IB). lra.
Qed.
(** for the mean of a coordinate the bounds are those of the data *)
Theorem C158_mean : forall draw (data : list R) n m M r s lo hi which,
  (forall i j, (j < length data)%nat -> (draw i j < length data)%nat) -> data <> [] -> (0 < n)%nat ->
  (forall x, In x data -> m <= x <= M) ->
  bootstrap_resampled draw data 0 (fun l => sumf (fun x => x) l / INR (length l)) n = Ok r -> Permutation r s -> Sorted Rle s -> ci s which = Ok (lo, hi) -> 0 <= which ->
  m <= lo <= hi /\ hi <= M.
Proof.
  intros draw data n m M r s lo hi which D NE N BD E PS SS C W.
  apply (C158_interval R draw data 0 _ n m M r s lo hi which D NE N) with (2 := E); auto.
  intros x LX IX. assert (P : 0 < INR (length x)) by (rewrite LX; apply lt_0_INR; destruct data; [congruence|cbn; lia]).
  assert (LO : sumf (fun _ => m) x <= sumf (fun y => y) x) by (apply sumf_le; intros y Y; apply BD, IX, Y).
  assert (HI : sumf (fun y => y) x <= sumf (fun _ => M) x) by (apply sumf_le; intros y Y; apply BD, IX, Y).
  rewrite sumf_const in LO, HI. set (k := INR (length x)) in *. set (z := sumf (fun y => y) x) in *.
  split; (apply (Rmult_le_reg_r k); [auto|]; replace (z / k * k) with z by (field; lra); lra).
Qed.
(** noise on the last coordinate only leaves the others alone; without noise every
    repetition gives the value for the data *)
Theorem C158_noise : forall B (noise : nat -> list vec3) std sym (data : list vec3) (func : list vec3 -> B) n,
  (forall i, length (noise i) = length data) ->
  let r := bootstrap_noise noise std sym data func n in
  length r = n /\ (std = 0 -> r = repeat (func data) n) /\
  (forall b, In b r -> exists s, b = func s /\ length s = length data /\ (sym = false -> map (fun p => (vx p, vy p)) s = map (fun p => (vx p, vy p)) data)).
Proof.
  intros B noise std sym data func n L r. unfold r, bootstrap_noise. split; [now rewrite map_length, seq_length|].
  assert (AUX : forall (l e : list vec3), length e = length l -> forall g : vec3 -> vec3 -> vec3, (forall p q, g p q = p) -> map (fun '(p, q) => g p q) (combine l e) = l).
  { induction l as [|p l IH]; intros [|e k] LL g G; try discriminate; [reflexivity|]. cbn [combine map]. f_equal; [apply G|apply IH; auto]. }
  split.
  - intros ->. generalize 0%nat. clear r. induction n as [|n IH]; intros k; [reflexivity|]. cbn [seq map repeat]. f_equal; [|apply IH]. f_equal.
    apply (AUX data (noise k) (L k) (fun p e => vadd p (if sym then vscale 0 e else V3 0 0 (0 * vz e)))). intros p q. destruct sym; apply vec3_eq; vunf; ring.
  - intros b I. apply in_map_iff in I. destruct I as (i & <- & _). eexists. split; [reflexivity|]. split; [rewrite map_length, combine_length, L; lia|]. intros ->.
    clear AUX r. specialize (L i). revert L. generalize (noise i). induction data as [|p data IH]; intros [|e l] LL; try discriminate; [reflexivity|].
    cbn [combine map]. f_equal; [vunf; cbn [vx vy]; f_equal; ring|apply IH; now injection LL].
Qed.

(** Cases. *)
Example C155_case : exists f w, PCAOrientation svd_ref (axis_data 3 2 1) None None = Ok f /\ comparison_half_width (rotated f) = Ok w /\ 0 <= w.
Proof.
  destruct (axis_fit 3 2 1) as [f F]. exists f.
  destruct (fit_inv _ _ _ lapack_ref F) as (_ & u & m & _ & _ & _ & EA & _). rewrite axis_centered in EA.
  destruct (comparison_half_width (rotated f)) as [w|e|] eqn:E.
  - exists w. split; [auto|]. split; [auto|]. eapply C155_first; eauto.
  - exfalso. unfold rotated in E. rewrite EA in E. discriminate.
  - exfalso. unfold rotated in E. rewrite EA in E. discriminate.
Qed.
Example C156_case : cov_hyperbola (4, 9) ((1, 0), (0, 1)) (10, 20) [0; 2] 1 1 = Some ([0 * 1 + 3 * 0 + 10; 2 * 1 + 3 * sqrt 2 * 0 + 10], [0 * 0 + -3 * 1 + 20; 2 * 0 + - (3 * sqrt 2) * 1 + 20], [0 * 0 + 3 * 1 + 20; 2 * 0 + 3 * sqrt 2 * 1 + 20]).
Proof.
  rewrite cov_value by lra. cbv zeta. cbn [map fst snd vmul2].
  assert (S9 : sqrt 9 = 3) by (replace 9 with (3 * 3) by ring; apply sqrt_square; lra).
  rewrite S9. replace (0 * 0 / (4 * 1) + 1 / 1) with 1 by field. replace (2 * 2 / (4 * 1) + 1 / 1) with 2 by field. rewrite sqrt_1.
  repeat f_equal; ring.
Qed.
Example C157_case : score_at [1; 2; 4] 75 = Ok 3 /\ ci [1; 2; 4] 50 = Ok (3/2, 3).
Proof.
  assert (A : score_at [1; 2; 4] 75 = Ok 3).
  { pose proof (C157_value [1; 2; 4] 1 (1/2) ltac:(cbn; lia) ltac:(lra)) as H. cbn [length Nat.sub INR nth] in H.
    replace (100 * (1 + 1 / 2) / (1 + 1)) with 75 in H by field. rewrite H. f_equal. field. }
  assert (B : score_at [1; 2; 4] 25 = Ok (3/2)).
  { pose proof (C157_value [1; 2; 4] 0 (1/2) ltac:(cbn; lia) ltac:(lra)) as H. cbn [length Nat.sub INR nth] in H.
    replace (100 * (0 + 1 / 2) / (1 + 1)) with 25 in H by field. rewrite H. f_equal. field. }
  split; [auto|]. unfold ci. replace (50 - 50 / 2) with 25 by field. replace (50 + 50 / 2) with 75 by field. rewrite A, B. reflexivity.
Qed.
(** two samples of three rows *)
Example C158_case : bootstrap_resampled (fun i j => (i + j) mod 3)%nat [1; 2; 5] 0 (fun l => nth 0 l 0) 2 = Ok [1; 2] /\
  bootstrap_resampled (fun _ _ => 0%nat) (@nil R) 0 (fun l => nth 0 l 0) 2 = Raise ValueError /\
  bootstrap_noise (fun i => [V3 1 1 1]) 2 false [V3 5 6 7] (fun l => map vx l) 2 = [[5 + 0]; [5 + 0]].
Proof. repeat split. Qed.

Print Assumptions C155_first.
Print Assumptions C155_window_refuted.
Print Assumptions C156_band.
Print Assumptions C156_bottom_refuted.
Print Assumptions C156_simple.
Print Assumptions C156_projection.
Print Assumptions C156_unasserted.
Print Assumptions C157_percentile.
Print Assumptions C157_value.
Print Assumptions C157_affine.
Print Assumptions C157_interval.
Print Assumptions C158_resampled.
Print Assumptions C158_interval.
Print Assumptions C158_mean.
Print Assumptions C158_noise.
