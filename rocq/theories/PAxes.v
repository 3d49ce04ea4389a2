(** Properties C27-C37, C90, C91 and the error parts of C06-C08, C21. *)
From Coq Require Import Reals Lra Lia List Psatz Permutation Arith.
From Verif Require Import RVec Trig SpecPlane MPca LSvd LPca LFit LAngles LFit2 LExamples MAxes LAxes.
Import ListNotations.
Open Scope R_scope.

(** a scipy.stats whose F quantile is always [z] (used by the examples) *)
Definition const_stats (z : R) : stats := mkStats (fun _ _ _ => Some z) (fun _ _ => Some z).

Lemma ae_inv : forall h a b, angular_errors h = Some (a, b) -> nonneg3 h ->
  a = atan2 (sqrt (vz h)) (sqrt (vx h)) /\ b = atan2 (sqrt (vz h)) (sqrt (vy h)).
Proof. intros h a b E H. rewrite angular_errors_value in E by auto. split; congruence. Qed.

Lemma axes_noise : forall kw z e n, k_method kw = MNoise -> sorted3 e -> 3 <= n ->
  vx (axes_value kw z e n) = Rabs (sqrt (vx e) * sqrt (vx e) - noise_t z n (vz e) * sqrt (vx e)) /\
  vy (axes_value kw z e n) = Rabs (sqrt (vy e) * sqrt (vy e) - noise_t z n (vz e) * sqrt (vy e)) /\
  vz (axes_value kw z e n) = z_nominal kw e n + noise_t z n (vz e) * sqrt (vz e).
Proof.
  intros kw z e n KM (S2 & S1 & S0) N3. unfold axes_value; simpl. rewrite KM. cbn [err_term].
  rewrite !noise_axis_t, noise_term_t by lra. auto.
Qed.

(** ** C27 *)
Theorem C27_hyperbolic_axes : forall svd arr f st kw z, lapack svd ->
  PCAOrientation svd arr None None = Ok f ->
  stat_value st kw (INR (length arr)) = Some z -> 0 <= z ->
  let n := INR (length arr) in
  exists e h err, eigenvalues f = Some e /\ statistical_axes st kw f = Some h /\
    (0 <= vx h /\ 0 <= vy h /\ 0 <= vz h) /\ (0 <= vx err /\ 0 <= vy err /\ 0 <= vz err) /\
    vx h = Rabs (vx e - vx err) /\ vy h = Rabs (vy e - vy err) /\
    vz h = (if k_all_axes kw then vz e else vz e / (n - 1)) + vz err /\
    match k_method kw with
    | MNoise => err = V3 (2 * z * sqrt (vx e * (vz e / (n - 2)))) (2 * z * sqrt (vy e * (vz e / (n - 2))))
                         (2 * z * sqrt (vz e * (vz e / (n - 2))))
    | MSampling => err = vscale (z * sqrt (2 / (n - 1))) e
    end.
Proof.
  intros svd arr f st kw z HL HF HS Hz n.
  destruct (fit_has_facts _ _ _ HL HF) as (e & FF). pose proof FF as [E S N N3].
  exists e, (axes_value kw z e n),
    (V3 (err_term (k_method kw) z n (vz e) (vx e)) (err_term (k_method kw) z n (vz e) (vy e))
        (err_term (k_method kw) z n (vz e) (vz e))).
  split; auto. split; [now apply (stat_axes_value st kw f e n z)|].
  split; [exact (axes_value_nonneg kw z e n S N3 Hz)|]. destruct S as (S2 & S1 & S0).
  split. { simpl. repeat split; apply err_term_nonneg; auto; lra. }
  simpl. repeat split.
  destruct (k_method kw); simpl; unfold noise_term, sampling_term; auto.
  apply vec3_eq; simpl; ring.
Qed.
Example C27_ex : exists f, PCAOrientation svd_ref tilted_data None None = Ok f /\
  stat_value (const_stats 7) default_kw (INR (length tilted_data)) = Some 7.
Proof. destruct tilted_fit as (f & H & _). exists f; auto. Qed.

(** ** C28 *)
Theorem C28_angular_errors_range : forall h a b, 0 <= vx h -> 0 <= vy h -> 0 <= vz h ->
  angular_errors h = Some (a, b) -> 0 <= degrees a <= 90 /\ 0 <= degrees b <= 90.
Proof. intros h a b H0 H1 H2. apply angular_errors_range. repeat split; auto. Qed.
Theorem C28_monotone : forall h h' a b a' b',
  0 < vx h -> 0 < vy h -> 0 < vz h -> 0 < vx h' -> 0 < vy h' -> 0 < vz h' ->
  angular_errors h = Some (a, b) -> angular_errors h' = Some (a', b') ->
  (vx h' = vx h -> vz h < vz h' -> a < a') /\ (vy h' = vy h -> vz h < vz h' -> b < b') /\
  (vz h' = vz h -> vx h < vx h' -> a' < a) /\ (vz h' = vz h -> vy h < vy h' -> b' < b).
Proof.
  intros h h' a b a' b' X Y Z X' Y' Z' E E'.
  destruct (ae_inv _ _ _ E) as [-> ->]; [unfold nonneg3; lra|].
  destruct (ae_inv _ _ _ E') as [-> ->]; [unfold nonneg3; lra|].
  assert (P : forall x, 0 < x -> 0 < sqrt x) by (intros; now apply sqrt_lt_R0).
  repeat split; intros EQ LT; rewrite EQ.
  - apply atan2_lt_num; auto. left; auto. apply sqrt_lt_1; lra.
  - apply atan2_lt_num; auto. left; auto. apply sqrt_lt_1; lra.
  - apply atan2_lt_den; auto. left; auto. apply sqrt_lt_1; lra.
  - apply atan2_lt_den; auto. left; auto. apply sqrt_lt_1; lra.
Qed.
(** the accessor of a fit reports angles in [0, 90] *)
Theorem C28_fit : forall svd arr f st z, lapack svd ->
  PCAOrientation svd arr None None = Ok f ->
  f_ppf st (95/100) 2 (INR (length arr) - 2) = Some z -> 0 <= z ->
  exists a b, fit_angular_errors st f = Some (a, b) /\ 0 <= a <= 90 /\ 0 <= b <= 90.
Proof.
  intros svd arr f st z HL HF HS Hz.
  destruct (fit_has_facts _ _ _ HL HF) as (e & FF). pose proof FF as [E S N N3].
  unfold fit_angular_errors, hyperbolic_axes, noise_axes.
  rewrite (stat_axes_value st default_kw f e _ z FF HS Hz).
  pose proof (axes_value_nonneg default_kw z e _ S N3 Hz) as NN.
  cbn [obind]. pose proof (angular_errors_value _ NN) as V. rewrite V. cbn [obind].
  destruct (angular_errors_range _ _ _ NN V) as [A B].
  do 2 eexists. split; [reflexivity|]. auto.
Qed.
Example C28_ex : exists a b, angular_errors (V3 9 4 1) = Some (a, b).
Proof. rewrite angular_errors_value by (unfold nonneg3; simpl; lra). do 2 eexists; reflexivity. Qed.

(** ** C29, C30 *)
Lemma noise_order : forall kw z e n a b, k_method kw = MNoise -> sorted3 e -> 3 <= n -> 0 <= z ->
  angular_errors (axes_value kw z e n) = Some (a, b) ->
  let t := 2 * z * sqrt (vz e / (n - 2)) in
  (a <= b <-> Rabs (sqrt (vy e) * sqrt (vy e) - t * sqrt (vy e)) <=
              Rabs (sqrt (vx e) * sqrt (vx e) - t * sqrt (vx e))).
Proof.
  intros kw z e n a b KM S N3 Hz E t.
  pose proof (axes_value_nonneg kw z e n S N3 Hz) as NN. pose proof S as (S2 & S1 & S0).
  assert (HX : vx (axes_value kw z e n) = Rabs (sqrt (vx e) * sqrt (vx e) - t * sqrt (vx e))).
  { unfold axes_value; simpl. rewrite KM; simpl. apply noise_axis_t; lra. }
  assert (HY : vy (axes_value kw z e n) = Rabs (sqrt (vy e) * sqrt (vy e) - t * sqrt (vy e))).
  { unfold axes_value; simpl. rewrite KM; simpl. apply noise_axis_t; lra. }
  rewrite <- HX, <- HY.
  destruct (Rlt_dec 0 (vz (axes_value kw z e n))) as [P|P].
  - exact (angular_order_iff _ _ _ NN P E).
  - destruct NN as (N0 & N1 & N2).
    assert (Z : vz (axes_value kw z e n) = 0) by lra.
    assert (E2 : vz e = 0).
    { unfold axes_value, z_nominal in Z; simpl in Z.
      pose proof (err_term_nonneg (k_method kw) z n (vz e) (vz e) Hz N3 S2 S2).
      destruct (k_all_axes kw); [lra|].
      assert (0 <= vz e / (n - 1)) by (apply div_nonneg; lra).
      assert (Z1 : vz e / (n - 1) = 0) by lra.
      apply (f_equal (fun x => x * (n - 1))) in Z1. unfold Rdiv in Z1.
      rewrite Rmult_assoc, Rinv_l, Rmult_0_l in Z1 by lra. lra. }
    assert (T : t = 0).
    { unfold t. rewrite E2. unfold Rdiv. rewrite Rmult_0_l, sqrt_0. ring. }
    destruct (ae_inv _ _ _ E) as [-> ->]; [unfold nonneg3; auto|].
    rewrite Z, sqrt_0, !atan2_zero_num by apply sqrt_pos.
    rewrite HX, HY, T, !sqrt_sqrt by lra. rewrite !Rmult_0_l, !Rminus_0_r, !Rabs_right by lra.
    split; intros; lra.
Qed.

Theorem C29_ordered_when_well_defined : forall svd arr f st kw z e h a b, lapack svd ->
  PCAOrientation svd arr None None = Ok f -> k_method kw = MNoise ->
  stat_value st kw (INR (length arr)) = Some z -> 0 <= z ->
  eigenvalues f = Some e -> 4 * (z * z) * (vz e / (INR (length arr) - 2)) <= vy e ->
  statistical_axes st kw f = Some h -> angular_errors h = Some (a, b) -> a <= b.
Proof.
  intros svd arr f st kw z e h a b HL HF KM HS Hz Ee W EH EA.
  destruct (fit_has_facts _ _ _ HL HF) as (e' & FF). pose proof FF as [E S N N3].
  rewrite Ee in E. injection E as <-.
  rewrite (stat_axes_value st kw f e _ z FF HS Hz) in EH. injection EH as <-.
  apply (noise_order kw z e (INR (length arr)) a b KM S N3 Hz EA).
  destruct S as (S2 & S1 & S0). set (n := INR (length arr)) in *.
  assert (ME : 0 <= vz e / (n - 2)) by (apply div_nonneg; lra).
  set (t := 2 * z * sqrt (vz e / (n - 2))).
  assert (T0 : 0 <= t) by (apply Rmult_le_pos; [lra | apply sqrt_pos]).
  assert (TT : t * t <= vy e).
  { unfold t. replace (2 * z * sqrt (vz e / (n - 2)) * (2 * z * sqrt (vz e / (n - 2))))
      with (4 * (z * z) * (sqrt (vz e / (n - 2)) * sqrt (vz e / (n - 2)))) by ring.
    rewrite sqrt_sqrt; auto. }
  assert (Y : t <= sqrt (vy e)) by (rewrite <- (sqrt_sq_pos t T0); apply sqrt_le_1; nra).
  assert (XY : sqrt (vy e) <= sqrt (vx e)) by (apply sqrt_le_1; lra).
  rewrite !Rabs_right by nra. nra.
Qed.
Theorem C30_exact_ordering : forall svd arr f st kw z e h a b, lapack svd ->
  PCAOrientation svd arr None None = Ok f -> k_method kw = MNoise ->
  stat_value st kw (INR (length arr)) = Some z -> 0 <= z ->
  eigenvalues f = Some e -> statistical_axes st kw f = Some h -> angular_errors h = Some (a, b) ->
  let t := 2 * z * sqrt (vz e / (INR (length arr) - 2)) in
  (a <= b <-> Rabs (sqrt (vy e) * sqrt (vy e) - t * sqrt (vy e)) <=
              Rabs (sqrt (vx e) * sqrt (vx e) - t * sqrt (vx e))).
Proof.
  intros svd arr f st kw z e h a b HL HF KM HS Hz Ee EH EA.
  destruct (fit_has_facts _ _ _ HL HF) as (e' & FF). pose proof FF as [E S N N3].
  rewrite Ee in E. injection E as <-.
  rewrite (stat_axes_value st kw f e _ z FF HS Hz) in EH. injection EH as <-.
  exact (noise_order kw z e (INR (length arr)) a b KM S N3 Hz EA).
Qed.

Lemma axis_eig : forall svd a b c f, lapack svd -> 0 <= c <= b -> b <= a ->
  PCAOrientation svd (axis_data a b c) None None = Ok f ->
  eigenvalues f = Some (V3 (2/5 * (a * a)) (2/5 * (b * b)) (2/5 * (c * c))).
Proof.
  intros svd a b c f HL Hc Hb HF. rewrite (eig_some _ _ _ HL HF).
  rewrite (axis_singular _ a b c _ HL Hc Hb HF).
  destruct (fit_inv _ _ _ HL HF) as (_ & u & m & _ & _ & _ & _ & _ & _ & En & _). rewrite En. simpl.
  assert (S2 : sqrt 2 * sqrt 2 = 2) by (apply sqrt_sqrt; lra).
  assert (X : forall x, sqrt 2 * x * (sqrt 2 * x) / (1 + 1 + 1 + 1 + 1 + 1 - 1) = 2 / 5 * (x * x)).
  { intros x. replace (sqrt 2 * x * (sqrt 2 * x)) with (sqrt 2 * sqrt 2 * (x * x)) by ring. rewrite S2. field. }
  rewrite !X. reflexivity.
Qed.

Lemma sqrt_sc : forall x, 0 <= x -> sqrt (2/5 * (x * x)) = sqrt (2/5) * x.
Proof. intros x H. rewrite sqrt_mult by nra. rewrite sqrt_sq_pos; auto. Qed.

(** Whatever the F quantile is (if above 1): some data set gets a "minimum"
    error larger than its "maximum" error. *)
Theorem C30_order_refuted : forall svd st z, lapack svd ->
  f_ppf st (95/100) 2 (INR 6 - 2) = Some z -> 1 < z ->
  exists arr f mn mx, length arr = 6%nat /\ PCAOrientation svd arr None None = Ok f /\
    fit_angular_errors st f = Some (mn, mx) /\ mx < mn.
Proof.
  intros svd st z HL HS Hz.
  destruct (fit_exists svd (axis_data z ((1 + z) / 2) 1) HL) as [f HF]. { simpl; lia. }
  exists (axis_data z ((1 + z) / 2) 1), f.
  destruct (fit_has_facts _ _ _ HL HF) as (e & FF). pose proof FF as [E S N N3].
  change (INR (length (axis_data z ((1 + z) / 2) 1))) with (INR 6) in *.
  pose proof (axis_eig _ z ((1 + z) / 2) 1 _ HL ltac:(lra) ltac:(lra) HF) as Ee.
  rewrite Ee in E. injection E as <-.
  unfold fit_angular_errors, hyperbolic_axes, noise_axes.
  rewrite (stat_axes_value st default_kw f _ _ z FF HS ltac:(lra)). cbn [obind].
  match goal with |- context[axes_value _ _ ?x _] => set (e := x) in * end.
  pose proof (axes_value_nonneg default_kw z e _ S N3 ltac:(lra)) as NN.
  pose proof (angular_errors_value _ NN) as V. rewrite V. cbn [obind].
  do 2 eexists. split; [reflexivity|]. split; [exact HF|]. split; [reflexivity|].
  apply degrees_lt. destruct NN as (N0 & N1 & N2).
  assert (H5 : INR 6 - 2 = 4) by (simpl; lra).
  assert (Q5 : 0 < sqrt (2/5)) by (apply sqrt_lt_R0; lra).
  assert (QQ : sqrt (2/5) * sqrt (2/5) = 2/5) by (apply sqrt_sqrt; lra).
  assert (T : noise_t z (INR 6) (vz e) = sqrt (2/5) * z).
  { unfold noise_t. rewrite H5. unfold e; cbn [vz].
    replace (2 / 5 * (1 * 1) / 4) with (2/5 * (/2 * /2)) by field. rewrite sqrt_sc by lra. field. }
  assert (HX : vx (axes_value default_kw z e (INR 6)) = 0).
  { destruct (axes_noise default_kw z e _ eq_refl S N3) as (-> & _).
    rewrite T. unfold e; cbn [vx]. rewrite sqrt_sc by lra.
    replace (sqrt (2 / 5) * z * (sqrt (2 / 5) * z) - sqrt (2 / 5) * z * (sqrt (2 / 5) * z)) with 0 by ring.
    apply Rabs_R0. }
  assert (HY : 0 < vy (axes_value default_kw z e (INR 6))).
  { destruct (axes_noise default_kw z e _ eq_refl S N3) as (_ & -> & _).
    rewrite T. unfold e; cbn [vy]. rewrite sqrt_sc by lra. apply Rabs_pos_lt.
    set (q := sqrt (2/5)) in *.
    replace (q * ((1 + z) / 2) * (q * ((1 + z) / 2)) - q * z * (q * ((1 + z) / 2)))
      with ((q * q) * ((1 + z) / 2) * ((1 - z) / 2)) by field. rewrite QQ. nra. }
  assert (HZ : 0 < vz (axes_value default_kw z e (INR 6))).
  { destruct (axes_noise default_kw z e _ eq_refl S N3) as (_ & _ & ->). rewrite T.
    unfold z_nominal. cbn [k_all_axes default_kw].
    assert (0 <= sqrt (2/5) * z * sqrt (vz e)) by (apply Rmult_le_pos; [nra | apply sqrt_pos]).
    assert (0 < vz e) by (unfold e; simpl; lra). lra. }
  apply atan2_lt_den.
  - now apply sqrt_lt_R0.
  - apply sqrt_pos.
  - rewrite HX, sqrt_0. now apply sqrt_lt_R0.
Qed.
Example C30_ex : f_ppf (const_stats 7) (95/100) 2 (INR 6 - 2) = Some 7 /\ 1 < 7.
Proof. split; [reflexivity | lra]. Qed.

(** ** C31, C32 *)
Lemma err_term_mono : forall m z z' n e2 x, 0 <= z -> z <= z' -> 3 <= n -> 0 <= e2 -> 0 <= x ->
  err_term m z n e2 x <= err_term m z' n e2 x.
Proof.
  intros m z z' n e2 x Hz H Hn He Hx. destruct m; simpl; unfold sampling_term, noise_term.
  - apply Rmult_le_compat_r; [apply sqrt_pos | nra].
  - apply Rmult_le_compat_r; [apply sqrt_pos | lra].
Qed.

Theorem C31_confidence_monotone : forall svd arr f st kw kw' z z' e h h' a b a' b', lapack svd ->
  PCAOrientation svd arr None None = Ok f ->
  k_method kw' = k_method kw -> k_all_axes kw' = k_all_axes kw ->
  let n := INR (length arr) in
  stat_value st kw n = Some z -> stat_value st kw' n = Some z' -> 0 <= z -> z <= z' ->
  eigenvalues f = Some e ->
  err_term (k_method kw) z' n (vz e) (vx e) <= vx e ->
  err_term (k_method kw) z' n (vz e) (vy e) <= vy e ->
  statistical_axes st kw f = Some h -> statistical_axes st kw' f = Some h' ->
  angular_errors h = Some (a, b) -> angular_errors h' = Some (a', b') ->
  a <= a' /\ b <= b'.
Proof.
  intros svd arr f st kw kw' z z' e h h' a b a' b' HL HF KM KA n HS HS' Hz Hzz Ee W0 W1 EH EH' EA EA'.
  destruct (fit_has_facts _ _ _ HL HF) as (e0 & FF). pose proof FF as [E S N N3].
  rewrite Ee in E. injection E as <-. fold n in FF, N3.
  rewrite (stat_axes_value st kw f e _ z FF HS Hz) in EH. injection EH as <-.
  rewrite (stat_axes_value st kw' f e _ z' FF HS' ltac:(lra)) in EH'. injection EH' as <-.
  pose proof (axes_value_nonneg kw z e n S N3 Hz) as NN.
  pose proof (axes_value_nonneg kw' z' e n S N3 ltac:(lra)) as NN'.
  destruct (ae_inv _ _ _ EA) as [-> ->]; [auto|]. destruct (ae_inv _ _ _ EA') as [-> ->]; [auto|].
  destruct S as (S2 & S1 & S0).
  pose proof (err_term_mono (k_method kw) z z' n (vz e) (vx e) Hz Hzz N3 S2 ltac:(lra)) as M0.
  pose proof (err_term_mono (k_method kw) z z' n (vz e) (vy e) Hz Hzz N3 S2 ltac:(lra)) as M1.
  pose proof (err_term_mono (k_method kw) z z' n (vz e) (vz e) Hz Hzz N3 S2 ltac:(lra)) as M2.
  destruct NN as (A0 & A1 & A2). destruct NN' as (B0 & B1 & B2).
  assert (X : vx (axes_value kw' z' e n) <= vx (axes_value kw z e n)).
  { simpl. rewrite KM, !Rabs_right by lra. lra. }
  assert (Y : vy (axes_value kw' z' e n) <= vy (axes_value kw z e n)).
  { simpl. rewrite KM, !Rabs_right by lra. lra. }
  assert (Z : vz (axes_value kw z e n) <= vz (axes_value kw' z' e n)).
  { simpl. unfold z_nominal. rewrite KM, KA. lra. }
  split; apply atan2_le; try apply sqrt_pos; apply sqrt_le_1; auto.
Qed.
Example C31_ex : exists f e, PCAOrientation svd_ref (axis_data 3 2 (1/10)) None None = Ok f /\
  eigenvalues f = Some e /\ err_term MNoise 7 (INR 6) (vz e) (vy e) <= vy e.
Proof.
  destruct (axis_fit 3 2 (1/10)) as [f F]. exists f. eexists. split; [exact F|].
  split; [exact (axis_eig _ 3 2 (1/10) _ lapack_ref ltac:(lra) ltac:(lra) F)|].
  cbn [err_term]. rewrite noise_term_t by (simpl; lra). unfold noise_t. simpl vz. simpl vy.
  replace (INR 6 - 2) with 4 by (simpl; lra).
  replace (2 / 5 * (1 / 10 * (1 / 10)) / 4) with (2/5 * (/20 * /20)) by field.
  rewrite !sqrt_sc by lra.
  assert (QQ : sqrt (2/5) * sqrt (2/5) = 2/5) by (apply sqrt_sqrt; lra). nra.
Qed.

Theorem C32_folding : forall svd arr f st kw kw' z z' e h h', lapack svd ->
  PCAOrientation svd arr None None = Ok f ->
  k_method kw' = k_method kw ->
  let n := INR (length arr) in
  stat_value st kw n = Some z -> stat_value st kw' n = Some z' -> 0 <= z -> z <= z' ->
  eigenvalues f = Some e ->
  statistical_axes st kw f = Some h -> statistical_axes st kw' f = Some h' ->
  (vx e <= err_term (k_method kw) z n (vz e) (vx e) -> vx h <= vx h') /\
  (vy e <= err_term (k_method kw) z n (vz e) (vy e) -> vy h <= vy h').
Proof.
  intros svd arr f st kw kw' z z' e h h' HL HF KM n HS HS' Hz Hzz Ee EH EH'.
  destruct (fit_has_facts _ _ _ HL HF) as (e0 & FF). pose proof FF as [E S N N3].
  rewrite Ee in E. injection E as <-. fold n in FF, N3.
  rewrite (stat_axes_value st kw f e _ z FF HS Hz) in EH. injection EH as <-.
  rewrite (stat_axes_value st kw' f e _ z' FF HS' ltac:(lra)) in EH'. injection EH' as <-.
  destruct S as (S2 & S1 & S0).
  pose proof (err_term_mono (k_method kw) z z' n (vz e) (vx e) Hz Hzz N3 S2 ltac:(lra)) as M0.
  pose proof (err_term_mono (k_method kw) z z' n (vz e) (vy e) Hz Hzz N3 S2 ltac:(lra)) as M1.
  simpl. rewrite KM. split; intros W.
  - rewrite <- (Rabs_Ropp (vx e - _)), <- (Rabs_Ropp (vx e - err_term _ z' _ _ _)), !Rabs_right by lra. lra.
  - rewrite <- (Rabs_Ropp (vy e - _)), <- (Rabs_Ropp (vy e - err_term _ z' _ _ _)), !Rabs_right by lra. lra.
Qed.

(** a larger statistic (higher confidence) gives a smaller reported error *)
Theorem C32_smaller_error_refuted : forall svd z z', lapack svd -> 1 < z -> z < z' ->
  exists arr f a b a' b', PCAOrientation svd arr None None = Ok f /\
    fit_angular_errors (const_stats z) f = Some (a, b) /\
    fit_angular_errors (const_stats z') f = Some (a', b') /\ a' < a.
Proof.
  intros svd z z' HL Hz Hzz.
  destruct (fit_exists svd (axis_data z 1 1) HL) as [f HF]. { simpl; lia. }
  exists (axis_data z 1 1), f.
  destruct (fit_has_facts _ _ _ HL HF) as (e & FF). pose proof FF as [E S N N3].
  change (INR (length (axis_data z 1 1))) with (INR 6) in *.
  pose proof (axis_eig _ z 1 1 _ HL ltac:(lra) ltac:(lra) HF) as Ee.
  rewrite Ee in E. injection E as <-.
  unfold fit_angular_errors, hyperbolic_axes, noise_axes.
  rewrite (stat_axes_value (const_stats z) default_kw f _ _ z FF eq_refl ltac:(lra)).
  rewrite (stat_axes_value (const_stats z') default_kw f _ _ z' FF eq_refl ltac:(lra)). cbn [obind].
  match goal with |- context[axes_value _ _ ?x _] => set (e := x) in * end.
  pose proof (axes_value_nonneg default_kw z e _ S N3 ltac:(lra)) as NN.
  pose proof (axes_value_nonneg default_kw z' e _ S N3 ltac:(lra)) as NN'.
  rewrite (angular_errors_value _ NN), (angular_errors_value _ NN'). cbn [obind].
  do 4 eexists. split; [exact HF|]. split; [reflexivity|]. split; [reflexivity|].
  apply degrees_lt. destruct NN as (N0 & N1 & N2). destruct NN' as (N0' & N1' & N2').
  assert (H5 : INR 6 - 2 = 4) by (simpl; lra).
  assert (Q5 : 0 < sqrt (2/5)) by (apply sqrt_lt_R0; lra).
  assert (QQ : sqrt (2/5) * sqrt (2/5) = 2/5) by (apply sqrt_sqrt; lra).
  assert (T : forall z, noise_t z (INR 6) (vz e) = sqrt (2/5) * z).
  { intros y. unfold noise_t. rewrite H5. unfold e; cbn [vz].
    replace (2 / 5 * (1 * 1) / 4) with (2/5 * (/2 * /2)) by field. rewrite sqrt_sc by lra. field. }
  assert (HX : forall y, vx (axes_value default_kw y e (INR 6)) = Rabs (2/5 * z * (z - y))).
  { intros y. destruct (axes_noise default_kw y e _ eq_refl S N3) as (-> & _).
    rewrite T. unfold e; cbn [vx]. rewrite sqrt_sc by lra. f_equal.
    replace (sqrt (2 / 5) * z * (sqrt (2 / 5) * z) - sqrt (2 / 5) * y * (sqrt (2 / 5) * z))
      with (sqrt (2/5) * sqrt (2/5) * z * (z - y)) by ring. rewrite QQ. ring. }
  assert (HZ : forall y, 0 <= y -> 0 < vz (axes_value default_kw y e (INR 6))).
  { intros y Hy. destruct (axes_noise default_kw y e _ eq_refl S N3) as (_ & _ & ->). rewrite T.
    unfold z_nominal. cbn [k_all_axes default_kw].
    assert (0 <= sqrt (2/5) * y * sqrt (vz e)) by (apply Rmult_le_pos; [nra | apply sqrt_pos]).
    assert (0 < vz e) by (unfold e; simpl; lra). lra. }
  assert (P : 0 < vx (axes_value default_kw z' e (INR 6))).
  { rewrite HX. apply Rabs_pos_lt. nra. }
  rewrite (HX z). replace (2 / 5 * z * (z - z)) with 0 by ring. rewrite Rabs_R0, sqrt_0.
  assert (C : 0 < sqrt (vz (axes_value default_kw z e (INR 6)))) by (apply sqrt_lt_R0, HZ; lra).
  assert (R : atan2 (sqrt (vz (axes_value default_kw z e (INR 6)))) 0 = PI / 2).
  { rewrite atan2_axis by lra. replace (0 / _) with 0 by (field; lra). rewrite atan_0. ring. }
  rewrite R. rewrite atan2_axis; [| apply sqrt_lt_R0, HZ; lra | apply sqrt_pos].
  assert (0 < atan (sqrt (vx (axes_value default_kw z' e (INR 6))) / sqrt (vz (axes_value default_kw z' e (INR 6))))).
  { rewrite <- atan_0. apply atan_increasing. apply Rdiv_lt_0_compat; apply sqrt_lt_R0; auto. apply HZ; lra. }
  lra.
Qed.

(** ** C33 *)
Definition nonzero3 (v : vec3) : Prop := vx v <> 0 /\ vy v <> 0 /\ vz v <> 0.
Theorem C33_duality : forall ax, nonzero3 ax ->
  exists n, to_normal_errors ax = Some n /\ nonzero3 n /\ from_normal_errors n = Some ax /\
  exists p, from_normal_errors ax = Some p /\ nonzero3 p /\ to_normal_errors p = Some ax.
Proof.
  intros ax (X & Y & Z). unfold to_normal_errors, from_normal_errors.
  assert (H : has_zero ax = false) by (apply has_zero_false; auto). rewrite H.
  eexists. split; [reflexivity|].
  assert (N : forall x, x <> 0 -> 1 / x * (vz ax * vz ax) <> 0).
  { intros x Hx. apply Rmult_integral_contrapositive_currified.
    - unfold Rdiv. rewrite Rmult_1_l. now apply Rinv_neq_0_compat.
    - nra. }
  assert (N' : forall x, x <> 0 -> vz ax * vz ax / x <> 0).
  { intros x Hx. apply Rmult_integral_contrapositive_currified. nra. now apply Rinv_neq_0_compat. }
  split. { repeat split; simpl; auto. }
  split.
  { assert (H' : has_zero (V3 (1 / vx ax * (vz ax * vz ax)) (1 / vy ax * (vz ax * vz ax)) (1 / vz ax * (vz ax * vz ax))) = false).
    { apply has_zero_false. repeat split; simpl; auto. }
    rewrite H'. f_equal. apply vec3_eq; simpl; field; auto. }
  eexists. split; [reflexivity|]. split. { repeat split; simpl; auto. }
  assert (H' : has_zero (V3 (vz ax * vz ax / vx ax) (vz ax * vz ax / vy ax) (vz ax * vz ax / vz ax)) = false).
  { apply has_zero_false. repeat split; simpl; auto. }
  rewrite H'. f_equal. apply vec3_eq; simpl; field; auto.
Qed.
Theorem C33_complementary : forall ax n a b a' b', 0 < vx ax -> 0 < vy ax -> 0 < vz ax ->
  to_normal_errors ax = Some n -> angular_errors ax = Some (a, b) -> angular_errors n = Some (a', b') ->
  a + a' = PI / 2 /\ b + b' = PI / 2.
Proof.
  intros ax n a b a' b' X Y Z HN EA EA'. unfold to_normal_errors in HN.
  destruct (has_zero ax); [discriminate|]. injection HN as <-.
  assert (P : forall x, 0 < x -> 0 < 1 / x * (vz ax * vz ax)).
  { intros x Hx. apply Rmult_lt_0_compat; [apply Rdiv_lt_0_compat; lra | nra]. }
  destruct (ae_inv _ _ _ EA) as [-> ->]; [unfold nonneg3; lra|].
  destruct (ae_inv _ _ _ EA') as [-> ->]; [unfold nonneg3; simpl; repeat split; left; apply P; auto|]. simpl.
  assert (G : forall x, 0 < x -> atan2 (sqrt (vz ax)) (sqrt x) +
     atan2 (sqrt (1 / vz ax * (vz ax * vz ax))) (sqrt (1 / x * (vz ax * vz ax))) = PI / 2).
  { intros x Hx. replace (1 / vz ax * (vz ax * vz ax)) with (vz ax) by (field; lra).
    assert (Sz : 0 < sqrt (vz ax)) by (now apply sqrt_lt_R0).
    assert (Sx : 0 < sqrt x) by (now apply sqrt_lt_R0).
    assert (E : sqrt (1 / x * (vz ax * vz ax)) = vz ax / sqrt x).
    { rewrite sqrt_mult; [|left; apply Rdiv_lt_0_compat; lra | nra]. rewrite sqrt_sq_pos by lra.
      rewrite sqrt_div_alt by auto. rewrite sqrt_1. field. lra. }
    rewrite E. rewrite (atan2_axis (sqrt (vz ax)) (sqrt x)) by lra.
    rewrite atan2_pos by (apply Rdiv_lt_0_compat; lra).
    replace (sqrt (vz ax) / (vz ax / sqrt x)) with (sqrt x / sqrt (vz ax)). { ring. }
    rewrite <- (sqrt_sqrt (vz ax)) at 3 by lra. field. repeat split; lra. }
  split; apply G; auto.
Qed.
Example C33_ex : nonzero3 (V3 9 4 1) /\ to_normal_errors (V3 9 4 1) = Some (V3 (1/9) (1/4) 1).
Proof.
  split. { unfold nonzero3; simpl; lra. }
  unfold to_normal_errors. assert (H : has_zero (V3 9 4 1) = false) by (apply has_zero_false; simpl; lra).
  rewrite H. f_equal. apply vec3_eq; simpl; field.
Qed.

(** ** C34 *)
Theorem C34_noise_covariance : forall svd arr f, lapack svd ->
  PCAOrientation svd arr None None = Ok f ->
  exists c, noise_covariance f 2 = Some c /\ nonneg3 c /\
    (vz c = 0 <-> coplanar arr) /\ (coplanar arr -> c = vzero).
Proof.
  intros svd arr f HL HF.
  destruct (fit_has_facts _ _ _ HL HF) as (e & FF). destruct FF as [E S N N3].
  destruct S as (S2 & S1 & S0). set (n := INR (length arr)) in *.
  unfold noise_covariance. rewrite E, N. simpl. unfold fdiv. destruct (Req_EM_T (n - 2) 0); [lra|].
  simpl. eexists. split; [reflexivity|].
  assert (ME : 0 <= vz e / (n - 2)) by (apply div_nonneg; lra).
  split. { unfold nonneg3; simpl. repeat split; apply Rmult_le_pos; lra. }
  assert (Z : vz e = 0 <-> coplanar arr).
  { rewrite <- (s3_zero_coplanar _ _ _ HL HF). rewrite (eig_some _ _ _ HL HF) in E. injection E as <-. simpl.
    assert (P : 0 < INR (p_n f) - 1) by (unfold n_of in N; lra). split; intros H.
    - apply (f_equal (fun x => x * (INR (p_n f) - 1))) in H. unfold Rdiv in H.
      rewrite Rmult_assoc, Rinv_l, Rmult_1_r, Rmult_0_l in H by lra. nra.
    - rewrite H. unfold Rdiv. ring. }
  split.
  - rewrite <- Z. simpl. split; intros H.
    + assert (P : 0 < n - 2) by lra.
      apply (f_equal (fun x => x * (n - 2))) in H.
      replace (vz e / (n - 2) * (4 * vz e) * (n - 2)) with (4 * (vz e * vz e)) in H by (field; lra). nra.
    + rewrite H. unfold Rdiv. ring.
  - intros H. apply Z in H. rewrite H. unfold Rdiv. apply vec3_eq; simpl; ring.
Qed.
(** more samples with the same eigenvalues: strictly less noise covariance, and
    (for well-defined planes, statistic not larger) no larger angular errors *)
Theorem C34_decreases_with_n : forall svd1 svd2 arr1 arr2 f1 f2 e c1 c2,
  lapack svd1 -> lapack svd2 ->
  PCAOrientation svd1 arr1 None None = Ok f1 -> PCAOrientation svd2 arr2 None None = Ok f2 ->
  (length arr1 < length arr2)%nat -> eigenvalues f1 = Some e -> eigenvalues f2 = Some e -> 0 < vz e ->
  noise_covariance f1 2 = Some c1 -> noise_covariance f2 2 = Some c2 ->
  vx c2 < vx c1 /\ vy c2 < vy c1 /\ vz c2 < vz c1.
Proof.
  intros svd1 svd2 arr1 arr2 f1 f2 e c1 c2 L1 L2 F1 F2 Hn E1 E2 P C1 C2.
  destruct (fit_has_facts _ _ _ L1 F1) as (e1 & [X1 S N1 N31]). rewrite E1 in X1. injection X1 as <-.
  destruct (fit_has_facts _ _ _ L2 F2) as (e2 & [X2 _ N2 N32]). rewrite E2 in X2. injection X2 as <-.
  destruct S as (S2 & S1 & S0).
  assert (NN : INR (length arr1) < INR (length arr2)) by (now apply lt_INR).
  unfold noise_covariance in *. rewrite E1, N1 in C1. rewrite E2, N2 in C2. simpl in *. unfold fdiv in *.
  destruct (Req_EM_T (INR (length arr1) - 2) 0); [lra|].
  destruct (Req_EM_T (INR (length arr2) - 2) 0); [lra|].
  simpl in *. injection C1 as <-. injection C2 as <-.
  assert (M : vz e / (INR (length arr2) - 2) < vz e / (INR (length arr1) - 2)).
  { apply Rmult_lt_compat_l; auto. apply Rinv_lt_contravar; [apply Rmult_lt_0_compat; lra | lra]. }
  simpl. repeat split; apply Rmult_lt_compat_r; lra.
Qed.
Theorem C34_errors_decrease : forall svd1 svd2 arr1 arr2 f1 f2 st kw z1 z2 e h1 h2 a1 b1 a2 b2,
  lapack svd1 -> lapack svd2 ->
  PCAOrientation svd1 arr1 None None = Ok f1 -> PCAOrientation svd2 arr2 None None = Ok f2 ->
  (length arr1 <= length arr2)%nat -> eigenvalues f1 = Some e -> eigenvalues f2 = Some e ->
  k_method kw = MNoise -> k_all_axes kw = true ->
  stat_value st kw (INR (length arr1)) = Some z1 -> stat_value st kw (INR (length arr2)) = Some z2 ->
  0 <= z2 -> z2 <= z1 ->
  4 * (z1 * z1) * (vz e / (INR (length arr1) - 2)) <= vy e ->
  statistical_axes st kw f1 = Some h1 -> statistical_axes st kw f2 = Some h2 ->
  angular_errors h1 = Some (a1, b1) -> angular_errors h2 = Some (a2, b2) ->
  a2 <= a1 /\ b2 <= b1.
Proof.
  intros svd1 svd2 arr1 arr2 f1 f2 st kw z1 z2 e h1 h2 a1 b1 a2 b2 L1 L2 F1 F2 Hn E1 E2 KM KA HS1 HS2 Hz Hzz W EH1 EH2 EA1 EA2.
  destruct (fit_has_facts _ _ _ L1 F1) as (e1 & FF1). pose proof FF1 as [X1 S N1 N31]. rewrite E1 in X1. injection X1 as <-.
  destruct (fit_has_facts _ _ _ L2 F2) as (e2 & FF2). pose proof FF2 as [X2 _ N2 N32]. rewrite E2 in X2. injection X2 as <-.
  set (n1 := INR (length arr1)) in *. set (n2 := INR (length arr2)) in *.
  assert (NN : n1 <= n2) by (now apply le_INR).
  rewrite (stat_axes_value st kw f1 e _ z1 FF1 HS1 ltac:(lra)) in EH1. injection EH1 as <-.
  rewrite (stat_axes_value st kw f2 e _ z2 FF2 HS2 Hz) in EH2. injection EH2 as <-.
  pose proof (axes_value_nonneg kw z1 e n1 S N31 ltac:(lra)) as P1.
  pose proof (axes_value_nonneg kw z2 e n2 S N32 Hz) as P2.
  destruct (ae_inv _ _ _ EA1) as [-> ->]; [auto|]. destruct (ae_inv _ _ _ EA2) as [-> ->]; [auto|].
  destruct P1 as (A0 & A1 & A2). destruct P2 as (B0 & B1 & B2). destruct S as (S2 & S1 & S0).
  assert (ME1 : 0 <= vz e / (n1 - 2)) by (apply div_nonneg; lra).
  assert (ME2 : 0 <= vz e / (n2 - 2)) by (apply div_nonneg; lra).
  assert (MM : vz e / (n2 - 2) <= vz e / (n1 - 2)).
  { apply Rmult_le_compat_l; auto. apply Rinv_le_contravar; lra. }
  set (t1 := noise_t z1 n1 (vz e)). set (t2 := noise_t z2 n2 (vz e)).
  assert (T2 : 0 <= t2) by (apply Rmult_le_pos; [lra | apply sqrt_pos]).
  assert (T12 : t2 <= t1).
  { unfold t1, t2, noise_t. apply Rmult_le_compat; try lra. apply sqrt_pos. apply sqrt_le_1; auto. }
  assert (TT : t1 * t1 <= vy e).
  { unfold t1, noise_t. replace (2 * z1 * sqrt (vz e / (n1 - 2)) * (2 * z1 * sqrt (vz e / (n1 - 2))))
      with (4 * (z1 * z1) * (sqrt (vz e / (n1 - 2)) * sqrt (vz e / (n1 - 2)))) by ring. rewrite sqrt_sqrt; auto. }
  assert (Y : t1 <= sqrt (vy e)) by (rewrite <- (sqrt_sq_pos t1) by lra; apply sqrt_le_1; nra).
  assert (XY : sqrt (vy e) <= sqrt (vx e)) by (apply sqrt_le_1; lra).
  assert (X' : vx (axes_value kw z1 e n1) <= vx (axes_value kw z2 e n2)).
  { simpl. rewrite KM. cbn [err_term]. rewrite !noise_axis_t by lra. fold t1 t2. rewrite !Rabs_right by nra. nra. }
  assert (Y' : vy (axes_value kw z1 e n1) <= vy (axes_value kw z2 e n2)).
  { simpl. rewrite KM. cbn [err_term]. rewrite !noise_axis_t by lra. fold t1 t2. rewrite !Rabs_right by nra. nra. }
  assert (Z' : vz (axes_value kw z2 e n2) <= vz (axes_value kw z1 e n1)).
  { simpl. rewrite KM. cbn [err_term]. unfold z_nominal. rewrite KA, !noise_term_t by lra. fold t1 t2.
    assert (0 <= sqrt (vz e)) by apply sqrt_pos. nra. }
  split; apply atan2_le; try apply sqrt_pos; apply sqrt_le_1; auto.
Qed.

(** ** C35 *)
Theorem C35_dof_only_in_statistic : forall svd arr f st kw kw' z, lapack svd ->
  PCAOrientation svd arr None None = Ok f ->
  k_method kw = k_method kw' -> k_all_axes kw = k_all_axes kw' ->
  stat_value st kw (INR (length arr)) = Some z -> stat_value st kw' (INR (length arr)) = Some z -> 0 <= z ->
  statistical_axes st kw f = statistical_axes st kw' f.
Proof.
  intros svd arr f st kw kw' z HL HF KM KA HS HS' Hz.
  destruct (fit_has_facts _ _ _ HL HF) as (e & FF).
  rewrite (stat_axes_value st kw f e _ z FF HS Hz), (stat_axes_value st kw' f e _ z FF HS' Hz).
  unfold axes_value, z_nominal. rewrite KM, KA. reflexivity.
Qed.
(** with forwarding the noise term would use n - dof; it uses n - 2 whatever dof is *)
Theorem C35_noise_ignores_dof : forall svd arr f st conf dof z, lapack svd ->
  PCAOrientation svd arr None None = Ok f ->
  f_ppf st conf dof (INR (length arr) - dof) = Some z -> 0 <= z ->
  exists e h c2, eigenvalues f = Some e /\ noise_covariance f 2 = Some c2 /\
    statistical_axes st (mkKw MNoise conf dof false true) f = Some h /\
    vz h = vz e + z * sqrt (vz c2) /\ vx h = Rabs (vx e - z * sqrt (vx c2)) /\
    vy h = Rabs (vy e - z * sqrt (vy c2)).
Proof.
  intros svd arr f st conf dof z HL HF HS Hz.
  destruct (fit_has_facts _ _ _ HL HF) as (e & FF). pose proof FF as [E S N N3].
  destruct S as (S2 & S1 & S0). set (n := INR (length arr)) in *.
  assert (ME : 0 <= vz e / (n - 2)) by (apply div_nonneg; lra).
  exists e, (axes_value (mkKw MNoise conf dof false true) z e n), (vscale (vz e / (n - 2)) (vscale 4 e)).
  split; auto. split.
  { unfold noise_covariance. rewrite E, N. simpl. unfold fdiv.
    destruct (Req_EM_T (n - 2) 0); [exfalso; lra|]. reflexivity. }
  split. { exact (stat_axes_value st (mkKw MNoise conf dof false true) f e n z FF HS Hz). }
  simpl. unfold noise_term, z_nominal. cbn [k_all_axes]. rewrite !noise_sqrt by lra.
  split; [|split]; [ring | f_equal; ring | f_equal; ring].
Qed.

(** ** C36, C37 *)
Theorem C36_explained_variance : forall svd arr f e, lapack svd ->
  PCAOrientation svd arr None None = Ok f -> p_s f <> vzero -> eigenvalues f = Some e ->
  let s := p_s f in
  let prop := (vx e + vy e) / (vx e + vy e + vz e) in
  exists v, explained_variance f = Some v /\
    v = (vx s ^ 3 + vy s ^ 3) / (vx s ^ 3 + vy s ^ 3 + vz s ^ 3) /\
    prop <= v /\ (v = prop <-> vz s = 0 \/ (vx s = vy s /\ vy s = vz s)).
Proof.
  intros svd arr f e HL HF NZ Ee s prop.
  destruct (explained_value _ _ _ HL HF NZ) as (EV & P3 & S2 & S1 & S0 & P). fold s in EV, P3, S2, S1, S0, P.
  eexists. split; [exact EV|]. split. { unfold cube in *. f_equal; ring. }
  destruct (fit_inv _ _ _ HL HF) as (Hn & u & m & _ & _ & _ & _ & _ & _ & En & _).
  assert (Pn : 0 < INR (p_n f) - 1).
  { rewrite En. assert (INR 3 <= INR (length arr)) by (apply le_INR; auto). simpl in *. lra. }
  rewrite (eig_some _ _ _ HL HF) in Ee. injection Ee as <-. unfold prop. fold s. simpl.
  assert (P2 : 0 < vx s * vx s + vy s * vy s + vz s * vz s) by nra.
  assert (EP : (vx s * vx s / (INR (p_n f) - 1) + vy s * vy s / (INR (p_n f) - 1)) /
     (vx s * vx s / (INR (p_n f) - 1) + vy s * vy s / (INR (p_n f) - 1) + vz s * vz s / (INR (p_n f) - 1))
     = (vx s * vx s + vy s * vy s) / (vx s * vx s + vy s * vy s + vz s * vz s)).
  { field. repeat split; try lra. }
  rewrite EP. unfold cube in *.
  assert (D : (vx s * vx s * vx s + vy s * vy s * vy s) / (vx s * vx s * vx s + vy s * vy s * vy s + vz s * vz s * vz s)
     - (vx s * vx s + vy s * vy s) / (vx s * vx s + vy s * vy s + vz s * vz s)
     = (vz s * vz s) * (vx s * vx s * (vx s - vz s) + vy s * vy s * (vy s - vz s)) *
       / ((vx s * vx s * vx s + vy s * vy s * vy s + vz s * vz s * vz s) * (vx s * vx s + vy s * vy s + vz s * vz s))).
  { field. split; lra. }
  set (den := (vx s * vx s * vx s + vy s * vy s * vy s + vz s * vz s * vz s) * (vx s * vx s + vy s * vy s + vz s * vz s)) in *.
  assert (Pd : 0 < / den) by (apply Rinv_0_lt_compat; unfold den; apply Rmult_lt_0_compat; auto).
  assert (A : 0 <= vx s * vx s * (vx s - vz s)) by (apply Rmult_le_pos; nra).
  assert (B : 0 <= vy s * vy s * (vy s - vz s)) by (apply Rmult_le_pos; nra).
  assert (NN : 0 <= (vz s * vz s) * (vx s * vx s * (vx s - vz s) + vy s * vy s * (vy s - vz s))).
  { apply Rmult_le_pos; nra. }
  split. { assert (0 <= (vz s * vz s) * (vx s * vx s * (vx s - vz s) + vy s * vy s * (vy s - vz s)) * / den)
      by (apply Rmult_le_pos; lra). lra. }
  split; intros H.
  - assert (Z : (vz s * vz s) * (vx s * vx s * (vx s - vz s) + vy s * vy s * (vy s - vz s)) * / den = 0) by lra.
    apply Rmult_integral in Z. destruct Z as [Z|Z]; [|lra].
    apply Rmult_integral in Z. destruct Z as [Z|Z]; [left; nra|].
    destruct (Req_EM_T (vz s) 0); [left; auto|right].
    assert (A0 : vx s * vx s * (vx s - vz s) = 0) by lra.
    apply Rmult_integral in A0. destruct A0 as [A0|A0]; [nra|]. lra.
  - assert (Z : (vz s * vz s) * (vx s * vx s * (vx s - vz s) + vy s * vy s * (vy s - vz s)) = 0).
    { destruct H as [H|[H H']]. { rewrite H. ring. }
      rewrite H, H'. ring. }
    rewrite Z, Rmult_0_l in D. lra.
Qed.
Theorem C37_explained_variance_bounds : forall svd arr f, lapack svd ->
  PCAOrientation svd arr None None = Ok f -> p_s f <> vzero ->
  exists v, explained_variance f = Some v /\ 2/3 <= v <= 1 /\ (v = 1 <-> coplanar arr).
Proof.
  intros svd arr f HL HF NZ.
  destruct (explained_value _ _ _ HL HF NZ) as (EV & P3 & S2 & S1 & S0 & P).
  eexists. split; [exact EV|]. rewrite <- (s3_zero_coplanar _ _ _ HL HF).
  set (s := p_s f) in *.
  pose proof (cube_le (vz s) (vy s) S2 S1). pose proof (cube_le (vy s) (vx s) ltac:(lra) S0).
  pose proof (cube_nonneg _ S2). pose proof (cube_pos _ P).
  set (a := cube (vx s)) in *. set (b := cube (vy s)) in *. set (c := cube (vz s)) in *.
  split.
  - split.
    + apply Rmult_le_reg_r with (a + b + c); auto. unfold Rdiv. rewrite (Rmult_assoc (a + b)), Rinv_l by lra. lra.
    + apply Rmult_le_reg_r with (a + b + c); auto. unfold Rdiv. rewrite Rmult_assoc, Rinv_l by lra. lra.
  - split; intros H3.
    + apply (f_equal (fun x => x * (a + b + c))) in H3. unfold Rdiv in H3. rewrite Rmult_assoc, Rinv_l in H3 by lra.
      destruct (Req_EM_T (vz s) 0); auto. pose proof (cube_pos (vz s) ltac:(lra)). fold c in H4. lra.
    + assert (c = 0) by (unfold c, cube; rewrite H3; ring). rewrite H4. field. lra.
Qed.
Example C36_ex : exists f, PCAOrientation svd_ref (axis_data 3 2 1) None None = Ok f /\ p_s f <> vzero.
Proof.
  destruct example_fit as (f & F & _ & P & _). exists f. split; auto.
  intros E. rewrite E in P. simpl in P. lra.
Qed.

(** ** C90: sampling and Francq axes keep the eigenvalues' order *)
Theorem C90_sampling_ordered : forall svd arr f st kw z h a b, lapack svd ->
  PCAOrientation svd arr None None = Ok f -> k_method kw = MSampling ->
  stat_value st kw (INR (length arr)) = Some z -> 0 <= z ->
  statistical_axes st kw f = Some h -> angular_errors h = Some (a, b) -> a <= b.
Proof.
  intros svd arr f st kw z h a b HL HF KM HS Hz EH EA.
  destruct (fit_has_facts _ _ _ HL HF) as (e & FF). pose proof FF as [E S N N3].
  rewrite (stat_axes_value st kw f e _ z FF HS Hz) in EH. injection EH as <-.
  set (n := INR (length arr)) in *.
  pose proof (axes_value_nonneg kw z e n S N3 Hz) as (A0 & A1 & A2).
  destruct (ae_inv _ _ _ EA) as [-> ->]; [unfold nonneg3; auto|].
  apply atan2_le; try apply sqrt_pos; try lra. apply sqrt_le_1; auto.
  simpl. rewrite KM. cbn [err_term]. unfold sampling_term. destruct S as (S2 & S1 & S0).
  set (k := sqrt (2 / (n - 1))).
  replace (vx e - z * vx e * k) with (vx e * (1 - z * k)) by ring.
  replace (vy e - z * vy e * k) with (vy e * (1 - z * k)) by ring.
  rewrite !Rabs_mult. rewrite (Rabs_right (vx e)), (Rabs_right (vy e)) by lra.
  apply Rmult_le_compat_r; [apply Rabs_pos | auto].
Qed.
Theorem C90_francq_ordered : forall svd arr f st conf F, lapack svd ->
  PCAOrientation svd arr None None = Ok f ->
  f_ppf st conf 2 (INR (length arr) - 2) = Some F -> 0 <= F ->
  exists e h a b, eigenvalues f = Some e /\ francq_axes st conf f = Some h /\
    let k := sqrt (2 * F / (INR (length arr) - 2)) in
    h = V3 (vx e * Rabs (1 - k)) (vy e * Rabs (1 - k)) (vz e * (1 + k)) /\
    angular_errors h = Some (a, b) /\ a <= b.
Proof.
  intros svd arr f st conf F HL HF HS Hz.
  destruct (fit_has_facts _ _ _ HL HF) as (e & [E S N N3]). destruct S as (S2 & S1 & S0).
  set (n := INR (length arr)) in *. exists e.
  unfold francq_axes, fisher_statistic. rewrite E, N. cbn [obind]. rewrite HS. cbn [obind].
  unfold fdiv. destruct (Req_EM_T (n - 2) 0); [lra|]. cbn [obind].
  assert (P : 0 <= 2 * F / (n - 2)) by (apply div_nonneg; lra).
  rewrite fsqrt_some by auto. unfold apply_error_scaling. cbn [obind].
  set (k := sqrt (2 * F / (n - 2))). assert (K0 : 0 <= k) by apply sqrt_pos.
  set (h := V3 (vx e * Rabs (1 - k)) (vy e * Rabs (1 - k)) (vz e * (1 + k))).
  assert (EH : vabs (vsub (V3 (vx e) (vy e) (vz e * -1)) (vscale k e)) = h).
  { unfold h, vabs. apply vec3_eq; simpl.
    - replace (vx e - k * vx e) with (vx e * (1 - k)) by ring. rewrite Rabs_mult, (Rabs_right (vx e)) by lra. auto.
    - replace (vy e - k * vy e) with (vy e * (1 - k)) by ring. rewrite Rabs_mult, (Rabs_right (vy e)) by lra. auto.
    - rewrite <- Rabs_Ropp. replace (- (vz e * -1 - k * vz e)) with (vz e * (1 + k)) by ring.
      rewrite Rabs_right; auto. nra. }
  assert (NN : nonneg3 h).
  { unfold nonneg3, h; simpl. pose proof (Rabs_pos (1 - k)). repeat split; nra. }
  exists h. do 2 eexists. split; auto. split; [rewrite EH; auto|]. split; auto.
  split; [apply angular_errors_value; auto|].
  apply atan2_le; try apply sqrt_pos; try lra. apply sqrt_le_1; try apply NN.
  unfold h; simpl. apply Rmult_le_compat_r; [apply Rabs_pos | auto].
Qed.

(** ** C91: Babamoradi axes give angular errors that ignore the confidence level *)
Theorem C91_babamoradi_level : forall svd arr f st conf F, lapack svd ->
  PCAOrientation svd arr None None = Ok f ->
  f_ppf st conf 2 (INR (length arr) - 2) = Some F -> 0 < F ->
  exists e h, eigenvalues f = Some e /\ babamoradi_axes st conf f = Some h /\
    (exists k, 0 < k /\ h = vscale k e) /\ angular_errors h = angular_errors e.
Proof.
  intros svd arr f st conf F HL HF HS Hz.
  destruct (fit_has_facts _ _ _ HL HF) as (e & [E S N N3]). destruct S as (S2 & S1 & S0).
  set (n := INR (length arr)) in *. exists e.
  unfold babamoradi_axes, fisher_statistic. rewrite E, N. cbn [obind]. rewrite HS. cbn [obind].
  unfold fdiv. destruct (Req_EM_T (n - 2) 0); [lra|]. cbn [obind].
  destruct (Req_EM_T n 0); [lra|]. cbn [obind].
  assert (P : 0 < 2 * F / (n - 2)) by (apply Rdiv_lt_0_compat; lra).
  assert (P' : 0 < (n * n - 1) / n) by (apply Rdiv_lt_0_compat; nra).
  set (v := 2 * F / (n - 2)) in *. set (k := (n * n - 1) / n) in *.
  assert (PP : forall x, 0 <= x -> 0 <= x * v * k).
  { intros x Hx. apply Rmult_le_pos; [apply Rmult_le_pos|]; lra. }
  rewrite vsqrt_some by (simpl; apply PP; lra). cbn [obind]. eexists. split; auto. split; [reflexivity|].
  assert (EH : vmul (V3 (sqrt (vx e * v * k)) (sqrt (vy e * v * k)) (sqrt (vz e * v * k)))
     (V3 (sqrt (vx e * v * k)) (sqrt (vy e * v * k)) (sqrt (vz e * v * k))) = vscale (v * k) e).
  { apply vec3_eq; simpl; rewrite sqrt_sqrt by (apply PP; lra); ring. }
  simpl. rewrite EH. split. { exists (v * k). split; auto. nra. }
  assert (VK : 0 < v * k) by nra.
  rewrite !angular_errors_value by (unfold nonneg3; simpl; repeat split; nra).
  simpl. rewrite (sqrt_mult (v * k) (vx e)), (sqrt_mult (v * k) (vy e)), (sqrt_mult (v * k) (vz e)) by lra.
  rewrite !atan2_scale by (now apply sqrt_lt_R0). reflexivity.
Qed.

(** ** Error parts of C06, C07, C08 and C21: the axes depend only on the
    singular values and the number of points *)
Lemma axes_same : forall st kw f g, p_s g = p_s f -> p_n g = p_n f ->
  statistical_axes st kw g = statistical_axes st kw f.
Proof.
  intros st kw f g S N.
  assert (E : eigenvalues g = eigenvalues f) by (unfold eigenvalues; rewrite S, N; auto).
  unfold statistical_axes, sampling_covariance, noise_covariance, n_of. rewrite E, N. reflexivity.
Qed.
Theorem C06_errors : forall svd1 svd2 arr1 arr2 f1 f2 st kw,
  lapack svd1 -> lapack svd2 -> Permutation arr1 arr2 ->
  PCAOrientation svd1 arr1 None None = Ok f1 -> PCAOrientation svd2 arr2 None None = Ok f2 ->
  statistical_axes st kw f2 = statistical_axes st kw f1 /\
  fit_angular_errors st f2 = fit_angular_errors st f1.
Proof.
  intros svd1 svd2 arr1 arr2 f1 f2 st kw L1 L2 P F1 F2.
  destruct (perm_fits _ _ _ _ _ _ L1 L2 P F1 F2) as (S & N & _).
  split; [now apply axes_same|]. unfold fit_angular_errors, hyperbolic_axes, noise_axes.
  now rewrite (axes_same st default_kw f1 f2).
Qed.
Theorem C07_errors : forall svd1 svd2 arr f1 f2 m st kw,
  lapack svd1 -> lapack svd2 -> orthonormal m ->
  PCAOrientation svd1 arr None None = Ok f1 ->
  PCAOrientation svd2 (map (mv m) arr) None None = Ok f2 ->
  statistical_axes st kw f2 = statistical_axes st kw f1 /\
  fit_angular_errors st f2 = fit_angular_errors st f1.
Proof.
  intros svd1 svd2 arr f1 f2 m st kw L1 L2 O F1 F2.
  destruct (rot_fits _ _ _ _ _ _ L1 L2 O F1 F2) as (S & N & _).
  split; [now apply axes_same|]. unfold fit_angular_errors, hyperbolic_axes, noise_axes.
  now rewrite (axes_same st default_kw f1 f2).
Qed.
Lemma axes_value_scale : forall kw z e n k, sorted3 e -> 3 <= n -> 0 < k ->
  axes_value kw z (vscale (k * k) e) n = vscale (k * k) (axes_value kw z e n).
Proof.
  intros kw z e n k (S2 & S1 & S0) N3 Hk.
  assert (KK : 0 < k * k) by nra.
  assert (T : forall x, 0 <= x -> err_term (k_method kw) z n (k * k * vz e) (k * k * x) =
                      k * k * err_term (k_method kw) z n (vz e) x).
  { intros x Hx. assert (ME : 0 <= vz e / (n - 2)) by (apply div_nonneg; lra).
    destruct (k_method kw); simpl; unfold sampling_term, noise_term; [ring|].
    replace (k * k * x * (k * k * vz e / (n - 2))) with ((k * k) * (k * k) * (x * (vz e / (n - 2)))) by (field; lra).
    rewrite sqrt_mult; [|nra | apply Rmult_le_pos; auto]. rewrite sqrt_sq_pos by lra. ring. }
  unfold axes_value. apply vec3_eq; simpl.
  - rewrite T by lra. rewrite <- Rmult_minus_distr_l, Rabs_mult, (Rabs_right (k * k)) by lra. auto.
  - rewrite T by lra. rewrite <- Rmult_minus_distr_l, Rabs_mult, (Rabs_right (k * k)) by lra. auto.
  - rewrite T by lra. unfold z_nominal; simpl. destruct (k_all_axes kw); [ring | field; lra].
Qed.
Theorem C08_errors : forall svd1 svd2 arr f1 f2 k st kw z,
  lapack svd1 -> lapack svd2 -> 0 < k ->
  PCAOrientation svd1 arr None None = Ok f1 ->
  PCAOrientation svd2 (map (vscale k) arr) None None = Ok f2 ->
  stat_value st kw (INR (length arr)) = Some z -> 0 <= z ->
  exists h, statistical_axes st kw f1 = Some h /\
    statistical_axes st kw f2 = Some (vscale (k * k) h) /\
    angular_errors (vscale (k * k) h) = angular_errors h.
Proof.
  intros svd1 svd2 arr f1 f2 k st kw z L1 L2 K F1 F2 HS Hz.
  destruct (scale_fits _ _ _ _ _ _ L1 L2 K F1 F2) as (S & N & _).
  destruct (fit_has_facts _ _ _ L1 F1) as (e & FF). pose proof FF as [E SO NO N3].
  assert (FF2 : fit_facts f2 (vscale (k * k) e) (INR (length arr))).
  { constructor.
    - rewrite (eig_some _ _ _ L1 F1) in E. injection E as <-.
      rewrite (eig_some _ _ _ L2 F2), S, N. f_equal. apply vec3_eq; simpl; unfold Rdiv; ring.
    - destruct SO as (S2 & S1 & S0). assert (0 < k * k) by nra. unfold sorted3; simpl. repeat split; nra.
    - unfold n_of in *. now rewrite N. - auto. }
  exists (axes_value kw z e (INR (length arr))).
  split; [now apply stat_axes_value|].
  rewrite (stat_axes_value st kw f2 _ _ z FF2 HS Hz), axes_value_scale by auto. split; auto.
  pose proof (axes_value_nonneg kw z e _ SO N3 Hz) as NN. pose proof NN as (A0 & A1 & A2).
  assert (KK : 0 < k * k) by nra.
  rewrite !angular_errors_value; [|auto| unfold nonneg3; cbn [vscale vx vy vz]; repeat split; apply Rmult_le_pos; lra].
  set (h := axes_value kw z e (INR (length arr))) in *.
  cbn [vscale vx vy vz]. rewrite (sqrt_mult (k * k) (vx h)), (sqrt_mult (k * k) (vy h)), (sqrt_mult (k * k) (vz h)) by lra.
  rewrite !atan2_scale by (now apply sqrt_lt_R0). reflexivity.
Qed.
Theorem C21_errors : forall svd svd' arr f st kw, lapack svd ->
  PCAOrientation svd arr None None = Ok f -> 0 < vz (p_s f) ->
  exists g, PCAOrientation svd' arr None (Some (principal_axes f)) = Ok g /\
    statistical_axes st kw g = statistical_axes st kw f /\
    fit_angular_errors st g = fit_angular_errors st f.
Proof.
  intros svd svd' arr f st kw HL HF Hp. destruct (reload_ok svd svd' arr f HL HF Hp) as [E _].
  exists (forget_U f). split; auto.
Qed.

Print Assumptions C27_hyperbolic_axes.
Print Assumptions C28_angular_errors_range.
Print Assumptions C28_monotone.
Print Assumptions C28_fit.
Print Assumptions C29_ordered_when_well_defined.
Print Assumptions C30_exact_ordering.
Print Assumptions C30_order_refuted.
Print Assumptions C31_confidence_monotone.
Print Assumptions C32_folding.
Print Assumptions C32_smaller_error_refuted.
Print Assumptions C33_duality.
Print Assumptions C33_complementary.
Print Assumptions C34_noise_covariance.
Print Assumptions C34_decreases_with_n.
Print Assumptions C34_errors_decrease.
Print Assumptions C35_dof_only_in_statistic.
Print Assumptions C35_noise_ignores_dof.
Print Assumptions C36_explained_variance.
Print Assumptions C37_explained_variance_bounds.
Print Assumptions C90_sampling_ordered.
Print Assumptions C90_francq_ordered.
Print Assumptions C91_babamoradi_level.
Print Assumptions C06_errors.
Print Assumptions C07_errors.
Print Assumptions C08_errors.
Print Assumptions C21_errors.
