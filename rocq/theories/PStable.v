(** C198, C199: small errors in the coordinates. *)
From Coq Require Import Reals Lra Lia List Psatz Permutation Arith.
From Verif Require Import RVec Trig SpecPlane SpecStable MPca LSvd LPca LAngles LExamples LStable.
Import ListNotations.
Open Scope R_scope.

(** * Centring *)
Definition diffs (a b : list vec3) : list vec3 := map (fun '(p, q) => vsub q p) (combine a b).
Lemma diffs_length : forall a b, length a = length b -> length (diffs a b) = length a.
Proof. intros. unfold diffs. rewrite map_length, combine_length. lia. Qed.
Lemma diffs_sum : forall a b, length a = length b -> vsum (diffs a b) = vsub (vsum b) (vsum a).
Proof.
  induction a as [|p a IH]; destruct b as [|q b]; simpl; intros LN; try discriminate; [apply vec3_eq; simpl; ring|].
  specialize (IH b ltac:(auto)). unfold vsum, vsub in IH. injection IH as h1 h2 h3. apply vec3_eq; simpl.
  - fold (diffs a b). rewrite h1. ring.
  - fold (diffs a b). rewrite h2. ring.
  - fold (diffs a b). rewrite h3. ring.
Qed.
Lemma sum_sub : forall t l, sumf nrm2 (map (fun p => vsub p t) l) = sumf nrm2 l - 2 * dot (vsum l) t + INR (length l) * nrm2 t.
Proof.
  intros t l. rewrite sumf_map, (sumf_ext _ _ (fun p => nrm2 p - 2 * dot p t + nrm2 t)) by (intros; vunf; ring).
  rewrite sumf_plus, sumf_minus, sumf_scal, dot_vsum, sumf_const. ring.
Qed.
Lemma near_diffs : forall e a b, near e a b <-> 0 <= e /\ length a = length b /\ sumf nrm2 (diffs a b) <= e * e.
Proof.
  intros. unfold near, diffs. rewrite sumf_map.
  rewrite (sumf_ext _ (fun a0 => nrm2 (let '(p, q) := a0 in vsub q p)) (fun '(p, q) => nrm2 (vsub q p))) by (intros [p q] _; reflexivity). tauto.
Qed.
Lemma combine_map : forall A B C D (f : A -> C) (g : B -> D) a b,
  combine (map f a) (map g b) = map (fun '(x, y) => (f x, g y)) (combine a b).
Proof. induction a; destruct b; simpl; auto. f_equal. auto. Qed.
(** subtracting the means brings the arrays no further apart *)
Lemma near_centered : forall e a b, a <> [] -> near e a b -> near e (centered a) (centered b).
Proof.
  intros e a b NE N. apply near_diffs in N. destruct N as (E & LN & N). apply near_diffs.
  split; auto. split; [now rewrite !centered_length|].
  assert (NB : b <> []) by (intro; subst; destruct a; [congruence|discriminate]).
  destruct (mean_exists a NE) as [m M]. destruct (mean_exists b NB) as [m' M'].
  rewrite (centered_mean _ _ M), (centered_mean _ _ M').
  assert (DD : diffs (map (fun p => vsub p m) a) (map (fun p => vsub p m') b) = map (fun p => vsub p (vsub m' m)) (diffs a b)).
  { unfold diffs. rewrite combine_map, !map_map. apply map_ext. intros [p q]. apply vec3_eq; simpl; ring. }
  rewrite DD, sum_sub, diffs_length, diffs_sum by auto.
  destruct M as (_ & M). destruct M' as (_ & M'). rewrite <- M, <- M', <- LN.
  replace (vsub (vscale (INR (length a)) m') (vscale (INR (length a)) m)) with (vscale (INR (length a)) (vsub m' m)) by (apply vec3_eq; simpl; ring).
  rewrite dot_scale_l. fold (nrm2 (vsub m' m)).
  assert (0 <= INR (length a) * nrm2 (vsub m' m)) by (apply Rmult_le_pos; [apply pos_INR|apply nrm2_nonneg]). lra.
Qed.
Lemma moved_length : forall e a b, moved e a b -> length a = length b.
Proof. intros e a b M. induction M; simpl; congruence. Qed.
Lemma moved_near : forall e a b, 0 <= e -> moved e a b -> near (e * sqrt (INR (length a))) a b.
Proof.
  intros e a b E M. pose proof (pos_INR (length a)) as P. split; [apply Rmult_le_pos; auto; apply sqrt_pos|]. split; [eapply moved_length; eauto|].
  replace (e * sqrt (INR (length a)) * (e * sqrt (INR (length a)))) with (e * e * (sqrt (INR (length a)) * sqrt (INR (length a)))) by ring.
  rewrite sqrt_sqrt by auto. clear P. induction M as [|p q a b H M IH]; [simpl; lra|].
  change (combine (p :: a) (q :: b)) with ((p, q) :: combine a b). cbn [sumf]. cbn [length]. rewrite S_INR.
  assert (nrm2 (vsub q p) <= e * e). { rewrite <- norm_sqr. apply Rmult_le_compat; auto; apply norm_nonneg. } lra.
Qed.

(** * Two fits to arrays near each other *)
Lemma near_svd : forall e a b u s v u' s' v', near e a b -> is_svd a u s v -> is_svd b u' s' v' ->
  Rabs (vx s' - vx s) <= e /\ Rabs (vy s' - vy s) <= e /\ Rabs (vz s' - vz s) <= e /\
  (vz s + e < vy s -> norm (cross (r2 v) (r2 v')) * (vy s - vz s - e) <= sqrt 2 * e).
Proof.
  intros e a b u s v u' s' v' N S S'. pose proof (near_sym _ _ _ N) as N'.
  destruct N as (E & LN & N). destruct N' as (_ & LN' & N').
  assert (S1 : is_svd (map fst (combine a b)) u s v) by (rewrite combine_fst; auto).
  assert (S2 : is_svd (map snd (combine a b)) u' s' v') by (rewrite combine_snd; auto).
  assert (T1 : is_svd (map fst (combine b a)) u' s' v') by (rewrite combine_fst; auto).
  assert (T2 : is_svd (map snd (combine b a)) u s v) by (rewrite combine_snd; auto).
  destruct (weyl _ e E N _ _ _ _ _ _ S1 S2) as (w0 & w1 & w2).
  destruct (weyl _ e E N' _ _ _ _ _ _ T1 T2) as (x0 & x1 & x2).
  split; [apply Rabs_le; lra|]. split; [apply Rabs_le; lra|]. split; [apply Rabs_le; lra|].
  intros G. exact (tilt_normal _ e E N _ _ _ _ _ _ S1 S2 G).
Qed.

(** moving every point by at most e changes the mean by at most e and the singular
    values by at most e sqrt(n) *)
Theorem C198_singular : forall svd1 svd2 arr arr' f f' e, lapack svd1 -> lapack svd2 ->
  PCAOrientation svd1 arr None None = Ok f -> PCAOrientation svd2 arr' None None = Ok f' ->
  0 <= e -> moved e arr arr' ->
  let r := e * sqrt (INR (length arr)) in
  Rabs (vx (p_s f') - vx (p_s f)) <= r /\ Rabs (vy (p_s f') - vy (p_s f)) <= r /\
  Rabs (vz (p_s f') - vz (p_s f)) <= r.
Proof.
  intros svd1 svd2 arr arr' f f' e L1 L2 F F' E M r.
  destruct (fit_inv _ _ _ L1 F) as (N3 & u & m & S & _). destruct (fit_inv _ _ _ L2 F') as (_ & u' & m' & S' & _).
  assert (NE : arr <> []) by (destruct arr; [simpl in N3; lia|discriminate]).
  pose proof (near_centered _ _ _ NE (moved_near _ _ _ E M)) as N.
  destruct (near_svd _ _ _ _ _ _ _ _ _ N S S') as (h0 & h1 & h2 & _). auto.
Qed.
Theorem C198_mean : forall svd1 svd2 arr arr' f f' e, lapack svd1 -> lapack svd2 ->
  PCAOrientation svd1 arr None None = Ok f -> PCAOrientation svd2 arr' None None = Ok f' ->
  0 <= e -> moved e arr arr' ->
  exists m m', center f = Some m /\ center f' = Some m' /\ norm (vsub m' m) <= e.
Proof.
  intros svd1 svd2 arr arr' f f' e L1 L2 F F' E M.
  destruct (fit_inv _ _ _ L1 F) as (N3 & u & m & _ & MM & _ & _ & C & _). destruct (fit_inv _ _ _ L2 F') as (_ & u' & m' & _ & MM' & _ & _ & C' & _).
  exists m, m'. split; auto. split; auto.
  pose proof (moved_length _ _ _ M) as LN. pose proof (moved_near _ _ _ E M) as N. apply near_diffs in N. destruct N as (_ & _ & N).
  pose proof (sum_sub (vsub m' m) (diffs arr arr')) as SS. rewrite diffs_length, diffs_sum in SS by auto.
  destruct MM as (_ & MM). destruct MM' as (_ & MM'). rewrite <- MM, <- MM', <- LN in SS.
  replace (vsub (vscale (INR (length arr)) m') (vscale (INR (length arr)) m)) with (vscale (INR (length arr)) (vsub m' m)) in SS by (apply vec3_eq; simpl; ring).
  rewrite dot_scale_l in SS. fold (nrm2 (vsub m' m)) in SS.
  assert (0 <= sumf nrm2 (map (fun p => vsub p (vsub m' m)) (diffs arr arr'))) by (apply sumf_nonneg; intros; apply nrm2_nonneg).
  assert (NP : 0 < INR (length arr)) by (apply lt_0_INR; lia).
  replace (e * sqrt (INR (length arr)) * (e * sqrt (INR (length arr)))) with (INR (length arr) * (e * e)) in N
    by (transitivity (e * e * (sqrt (INR (length arr)) * sqrt (INR (length arr)))); [rewrite sqrt_sqrt by lra; ring|ring]).
  apply sq_le; auto. rewrite norm_sqr. apply Rmult_le_reg_l with (INR (length arr)); auto. lra.
Qed.

(** * The normal, dip and strike *)
Lemma tilt_dip : forall n n' s d s' d', unit3 n -> unit3 n' ->
  strike_dip_of n = Some (s, d) -> strike_dip_of n' = Some (s', d') ->
  Rabs (sin (radians (d' - d))) <= norm (cross n n') /\
  sin (radians d) * sin (radians d') * Rabs (sin (radians (s' - s))) <= norm (cross n n').
Proof.
  intros n n' s d s' d' U U' H H'.
  destruct (strike_dip_of_spec n U) as (s1 & d1 & E & D & _ & P). rewrite H in E. injection E as <- <-.
  destruct (strike_dip_of_spec n' U') as (s1 & d1 & E & D' & _ & P'). rewrite H' in E. injection E as <- <-.
  set (k := plane_normal s d) in *. set (k' := plane_normal s' d') in *.
  assert (CC : nrm2 (cross n n') = nrm2 (cross k k')).
  { rewrite P, P'. destruct (Rlt_dec (vz n) 0), (Rlt_dec (vz n') 0); vunf; ring. }
  assert (NC : norm (cross n n') = norm (cross k k')) by (unfold norm; now rewrite CC).
  rewrite NC. clear P P' CC NC. unfold k, k'. rewrite !plane_normal_components.
  pose proof (sincos1 (radians s)) as s1. pose proof (sincos1 (radians d)) as s2.
  pose proof (sincos1 (radians s')) as s3. pose proof (sincos1 (radians d')) as s4.
  assert (PD : forall x, 0 <= x <= 90 -> 0 <= sin (radians x)).
  { intros x X. apply sin_ge_0; unfold radians; pose proof PI_RGT_0; nra. }
  pose proof (PD d D) as p1. pose proof (PD d' D') as p2.
  assert (PC : forall x, 0 <= x <= 90 -> 0 <= cos (radians x)).
  { intros x X. apply cos_ge_0; unfold radians; pose proof PI_RGT_0; nra. }
  pose proof (PC d D) as q1. pose proof (PC d' D') as q2.
  replace (radians (d' - d)) with (radians d' - radians d) by (unfold radians; field).
  replace (radians (s' - s)) with (radians s' - radians s) by (unfold radians; field).
  rewrite !sin_minus.
  set (a := sin (radians d)) in *. set (b := cos (radians d)) in *. set (a' := sin (radians d')) in *. set (b' := cos (radians d')) in *.
  set (x := sin (radians s)) in *. set (y := cos (radians s)) in *. set (x' := sin (radians s')) in *. set (y' := cos (radians s')) in *.
  clearbody a b a' b' x y x' y'. split.
  - apply sq_le; [apply norm_nonneg|]. rewrite norm_sqr. rewrite <- Rabs_mult, Rabs_right by apply Rle_ge, Rle_0_sqr.
    set (w := y * y' + x * x').
    assert (W : w <= 1). { unfold w. assert (0 <= (y - y') * (y - y')) by apply Rle_0_sqr. assert (0 <= (x - x') * (x - x')) by apply Rle_0_sqr. lra. }
    replace (nrm2 (cross (V3 (a * y) (- (a * x)) b) (V3 (a' * y') (- (a' * x')) b'))) with
      ((a * a * (x * x + y * y) + b * b) * (a' * a' * (x' * x' + y' * y') + b' * b') - (a * a' * w + b * b') * (a * a' * w + b * b')) by (unfold w; vunf; ring).
    assert (W' : -1 <= w). { unfold w. assert (0 <= (y + y') * (y + y')) by apply Rle_0_sqr. assert (0 <= (x + x') * (x + x')) by apply Rle_0_sqr. lra. }
    replace ((a * a * (x * x + y * y) + b * b) * (a' * a' * (x' * x' + y' * y') + b' * b')) with 1.
    2:{ replace (x * x + y * y) with 1 by lra. replace (x' * x' + y' * y') with 1 by lra. replace (a * a * 1 + b * b) with 1 by lra.
        replace (a' * a' * 1 + b' * b') with 1 by lra. ring. }
    assert (KK : (a' * b - b' * a) * (a' * b - b' * a) = 1 - (a * a' + b * b') * (a * a' + b * b')).
    { replace 1 with ((a * a + b * b) * (a' * a' + b' * b')) by (replace (a * a + b * b) with 1 by lra; replace (a' * a' + b' * b') with 1 by lra; ring). ring. }
    replace (a' * b - b' * a) with (a' * b - b' * a) in KK by ring. rewrite KK.
    assert (A0 : 0 <= a * a') by (apply Rmult_le_pos; auto). assert (B0 : 0 <= b * b') by (apply Rmult_le_pos; auto).
    set (A := a * a') in *. set (B := b * b') in *. clearbody A B w.
    cut ((A * w + B) * (A * w + B) <= (A + B) * (A + B)). { lra. }
    assert (A * w <= A) by nra. assert (- A <= A * w) by nra.
    replace ((A + B) * (A + B)) with (Rsqr (A + B)) by reflexivity. replace ((A * w + B) * (A * w + B)) with (Rsqr (A * w + B)) by reflexivity.
    apply Rsqr_le_abs_1. rewrite (Rabs_right (A + B)) by lra. apply Rabs_le. lra.
  - apply sq_le; [apply norm_nonneg|]. rewrite norm_sqr.
    replace (a * a' * Rabs (x' * y - y' * x) * (a * a' * Rabs (x' * y - y' * x))) with (a * a' * (a * a') * (Rabs (x' * y - y' * x) * Rabs (x' * y - y' * x))) by ring.
    rewrite <- Rabs_mult, Rabs_right by apply Rle_ge, Rle_0_sqr.
    vunf.
    match goal with |- _ <= ?u * ?u + ?v * ?v + ?z * ?z =>
      assert (0 <= u * u) by apply Rle_0_sqr; assert (0 <= v * v) by apply Rle_0_sqr; replace (z * z) with (a * a' * (a * a') * ((x' * y - y' * x) * (x' * y - y' * x))) by ring end.
    lra.
Qed.

(** if the second and third singular values differ by more than r, the plane turns by
    an angle whose sine is at most sqrt 2 r / (s2 - s3 - r), and so dip and strike *)
Theorem C199_normal : forall svd1 svd2 arr arr' f f' e, lapack svd1 -> lapack svd2 ->
  PCAOrientation svd1 arr None None = Ok f -> PCAOrientation svd2 arr' None None = Ok f' ->
  0 <= e -> moved e arr arr' ->
  let r := e * sqrt (INR (length arr)) in let gap := vy (p_s f) - vz (p_s f) in
  r < gap ->
  norm (cross (p_normal f) (p_normal f')) <= sqrt 2 * r / (gap - r).
Proof.
  intros svd1 svd2 arr arr' f f' e L1 L2 F F' E M r gap G.
  destruct (fit_inv _ _ _ L1 F) as (N3 & u & m & S & _ & _ & _ & _ & _ & _ & D). destruct (fit_inv _ _ _ L2 F') as (_ & u' & m' & S' & _ & _ & _ & _ & _ & _ & D').
  assert (NE : arr <> []) by (destruct arr; [simpl in N3; lia|discriminate]).
  pose proof (near_centered _ _ _ NE (moved_near _ _ _ E M)) as N.
  destruct (near_svd _ _ _ _ _ _ _ _ _ N S S') as (_ & _ & _ & T). fold r in T. specialize (T ltac:(unfold gap in G; lra)).
  fold gap in T.
  assert (X : norm (cross (p_normal f) (p_normal f')) = norm (cross (r2 (p_axes f)) (r2 (p_axes f')))).
  { unfold norm. f_equal. destruct (normal_line f D) as [-> | ->]; destruct (normal_line f' D') as [-> | ->]; vunf; ring. }
  rewrite X. apply Rmult_le_reg_r with (gap - r); [lra|].
  replace (sqrt 2 * r / (gap - r) * (gap - r)) with (sqrt 2 * r) by (field; lra). exact T.
Qed.
Theorem C199_strike_dip : forall svd1 svd2 arr arr' f f' e s d s' d', lapack svd1 -> lapack svd2 ->
  PCAOrientation svd1 arr None None = Ok f -> PCAOrientation svd2 arr' None None = Ok f' ->
  0 <= e -> moved e arr arr' ->
  let r := e * sqrt (INR (length arr)) in let gap := vy (p_s f) - vz (p_s f) in
  r < gap -> strike_dip f = Some (s, d) -> strike_dip f' = Some (s', d') ->
  Rabs (sin (radians (d' - d))) <= sqrt 2 * r / (gap - r) /\
  sin (radians d) * sin (radians d') * Rabs (sin (radians (s' - s))) <= sqrt 2 * r / (gap - r).
Proof.
  intros svd1 svd2 arr arr' f f' e s d s' d' L1 L2 F F' E M r gap G H H'.
  pose proof (C199_normal _ _ _ _ _ _ _ L1 L2 F F' E M G) as K.
  destruct (fit_inv _ _ _ L1 F) as (_ & u & m & S & _ & _ & _ & _ & _ & _ & D). destruct (fit_inv _ _ _ L2 F') as (_ & u' & m' & S' & _ & _ & _ & _ & _ & _ & D').
  assert (X : norm (cross (p_normal f) (p_normal f')) = norm (cross (r2 (p_axes f)) (r2 (p_axes f')))).
  { unfold norm. f_equal. destruct (normal_line f D) as [-> | ->]; destruct (normal_line f' D') as [-> | ->]; vunf; ring. }
  destruct (tilt_dip _ _ _ _ _ _ (orthonormal_unit2 _ (svd_v _ _ _ _ S)) (orthonormal_unit2 _ (svd_v _ _ _ _ S')) H H') as (h1 & h2).
  fold r gap in K. lra.
Qed.

(** without a gap the plane may turn by a right angle, however small the errors *)
Lemma third_axis : forall svd b c f d, lapack svd -> PCAOrientation svd (axis_data 2 b c) None None = Ok f ->
  0 < b <= 1 -> 0 < c <= 1 -> (d = ez /\ c < b) \/ (d = ey /\ b < c) -> same_line d (r2 (p_axes f)).
Proof.
  intros svd b c f d HL HF B C HD.
  destruct (fit_inv _ _ _ HL HF) as (_ & u & m & Hs & _). rewrite axis_centered in Hs.
  pose proof (Q_upper _ _ _ _ ex Hs ltac:(unfold nrm2; vunf; ring)) as U0.
  pose proof (Q_trace _ _ _ _ Hs) as T. destruct (Q_axes _ _ _ _ Hs) as (A0 & _ & A2).
  destruct (svd_v _ _ _ _ Hs) as (o0 & _ & o2 & _).
  assert (ND : nrm2 d = 1) by (destruct HD as [(-> & _)|(-> & _)]; vunf; ring).
  pose proof (Q_lower _ _ _ _ d Hs ND) as L0.
  pose proof (svd_s01 _ _ _ _ Hs). pose proof (svd_s12 _ _ _ _ Hs). pose proof (svd_s2 _ _ _ _ Hs).
  rewrite !axis_Q in *. unfold ex, ey, ez, dot in *. simpl in *.
  set (x0 := r0 (p_axes f)) in *. set (x2 := r2 (p_axes f)) in *.
  assert (E0 : vx (p_s f) * vx (p_s f) = 8).
  { assert (2 * 2 * (vx x0 * vx x0) + b * b * (vy x0 * vy x0) + c * c * (vz x0 * vz x0) <= 4).
    { assert (b * b <= 4) by nra. assert (c * c <= 4) by nra.
      assert (vx x0 * vx x0 = 1 - vy x0 * vy x0 - vz x0 * vz x0) as -> by lra.
      assert (0 <= vy x0 * vy x0) by nra. assert (0 <= vz x0 * vz x0) by nra. nra. }
    lra. }
  set (k := Rmin b c). assert (K : k <= b /\ k <= c) by (unfold k; split; [apply Rmin_l|apply Rmin_r]).
  assert (K0 : 0 < k) by (unfold k, Rmin; destruct (Rle_dec b c); lra).
  assert (E2 : 2 * (k * k) <= vz (p_s f) * vz (p_s f)).
  { rewrite <- A2. assert (k * k <= 4) by nra. assert (k * k <= b * b) by nra. assert (k * k <= c * c) by nra.
    assert (0 <= vy x2 * vy x2) by nra. assert (0 <= vz x2 * vz x2) by nra. assert (0 <= vx x2 * vx x2) by nra.
    assert (k * k = k * k * (vx x2 * vx x2) + k * k * (vy x2 * vy x2) + k * k * (vz x2 * vz x2)) by (rewrite <- !Rmult_plus_distr_l, o2; ring). nra. }
  assert (KD : Q (axis_data 2 b c) d d = 2 * (k * k)).
  { rewrite axis_Q. destruct HD as [(-> & LT)|(-> & LT)]; simpl; unfold k, Rmin; destruct (Rle_dec b c); try lra; ring. }
  assert (SUM : vz (p_s f) * vz (p_s f) = 2 * (k * k)).
  { apply Rle_antisym; auto. rewrite <- KD, axis_Q. lra. }
  apply (Q_min_unique _ _ _ _ _ Hs); auto; [|rewrite KD; lra].
  destruct (Rlt_le_dec (vz (p_s f)) (vy (p_s f))); auto. exfalso.
  assert (EQ : vy (p_s f) = vz (p_s f)) by lra. rewrite EQ in T.
  assert (b * b + c * c = 2 * (k * k)) by lra.
  destruct HD as [(_ & LT)|(_ & LT)]; nra.
Qed.
Theorem C199_tie_refuted : forall svd1 svd2 e, lapack svd1 -> lapack svd2 -> 0 < e ->
  exists arr arr' f f' s d s' d',
    PCAOrientation svd1 arr None None = Ok f /\ PCAOrientation svd2 arr' None None = Ok f' /\ moved e arr arr' /\
    strike_dip f = Some (s, d) /\ strike_dip f' = Some (s', d') /\ d = 0 /\ d' = 90.
Proof.
  intros svd1 svd2 e L1 L2 E. set (t := Rmin e (1/2)).
  assert (T : 0 < t <= 1/2 /\ t <= e) by (unfold t, Rmin; destruct (Rle_dec e (1/2)); lra). clearbody t.
  exists (axis_data 2 1 (1 - t)), (axis_data 2 (1 - t) 1).
  destruct (fit_exists svd1 (axis_data 2 1 (1 - t)) L1 ltac:(simpl; lia)) as [f F].
  destruct (fit_exists svd2 (axis_data 2 (1 - t) 1) L2 ltac:(simpl; lia)) as [f' F'].
  pose proof (third_axis _ _ _ _ ez L1 F ltac:(lra) ltac:(lra) ltac:(left; split; auto; lra)) as N.
  pose proof (third_axis _ _ _ _ ey L2 F' ltac:(lra) ltac:(lra) ltac:(right; split; auto; lra)) as N'.
  destruct (fit_inv _ _ _ L1 F) as (_ & u & m & Hs & _). destruct (fit_inv _ _ _ L2 F') as (_ & u' & m' & Hs' & _).
  pose proof (orthonormal_unit2 _ (svd_v _ _ _ _ Hs)) as U. pose proof (orthonormal_unit2 _ (svd_v _ _ _ _ Hs')) as U'.
  destruct (strike_dip_of_spec _ U) as (s & d & H & _). destruct (strike_dip_of_spec _ U') as (s' & d' & H' & _).
  exists f, f', s, d, s', d'. split; auto. split; auto. split.
  - unfold moved, axis_data.
    assert (K : forall p q, nrm2 (vsub q p) <= t * t -> norm (vsub q p) <= e).
    { intros p q Z. apply Rle_trans with t; [|lra]. apply sq_le; [lra|]. now rewrite norm_sqr. }
    do 6 (apply Forall2_cons; [apply K; vunf; nra|]); apply Forall2_nil.
  - split; [exact H|]. split; [exact H'|]. split.
    + apply (dip_zero_iff _ _ _ U H). apply same_line_sym in N. destruct N as [-> | ->]; vunf; split; ring.
    + apply (dip_90_iff _ _ _ U' H'). apply same_line_sym in N'. destruct N' as [-> | ->]; vunf; ring.
Qed.

(** the hypotheses hold, for instance, for errors up to a tenth in a tilted data set *)
Example C199_ex : exists f f', PCAOrientation svd_ref (axis_data 3 2 1) None None = Ok f /\
  PCAOrientation svd_ref (axis_data 3 2 (9/10)) None None = Ok f' /\
  moved (1/10) (axis_data 3 2 1) (axis_data 3 2 (9/10)) /\
  1/10 * sqrt (INR (length (axis_data 3 2 1))) < vy (p_s f) - vz (p_s f).
Proof.
  destruct (axis_fit 3 2 1) as [f F]. destruct (axis_fit 3 2 (9/10)) as [f' F'].
  exists f, f'. split; auto. split; auto. split.
  - unfold moved, axis_data.
    assert (K : forall p q, nrm2 (vsub q p) <= 1/10 * (1/10) -> norm (vsub q p) <= 1/10).
    { intros p q Z. apply sq_le; [lra|]. now rewrite norm_sqr. }
    do 6 (apply Forall2_cons; [apply K; vunf; lra|]); apply Forall2_nil.
  - rewrite (axis_singular _ 3 2 1 _ lapack_ref ltac:(lra) ltac:(lra) F). simpl length. simpl INR. simpl.
    replace (sqrt (1 + 1 + 1 + 1 + 1 + 1)) with (sqrt 2 * sqrt 3) by (rewrite <- sqrt_mult by lra; f_equal; ring).
    assert (sqrt 3 <= 2) by (apply sq_le; [lra|]; rewrite sqrt_sqrt; lra).
    assert (0 < sqrt 2) by (apply sqrt_lt_R0; lra). nra.
Qed.

Print Assumptions C198_singular.
Print Assumptions C198_mean.
Print Assumptions C199_normal.
Print Assumptions C199_strike_dip.
Print Assumptions C199_tie_refuted.
