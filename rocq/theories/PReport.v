(** C220: the distance of a fit from the fit of its group. *)
From Coq Require Import Reals Lra Lia List Psatz Arith.
From Verif Require Import RVec Trig SpecPlane SpecRatio MPca MAxes LSvd LPca LFit LFit2 LAxes PAxes PPca PRatio LExamples LRecon LAngles PLength MReport.
Import ListNotations.
Open Scope R_scope.

Lemma cross_norm : forall n m, dot n n = 1 -> dot m m = 1 -> dot (cross n m) (cross n m) = 1 - dot n m * dot n m.
Proof. intros [a b c] [d e f] H K. vunf. nra. Qed.
Lemma triple_first : forall n m r, dot n n = 1 -> dot r n = 0 -> dot (cross (cross n m) n) r = dot m r.
Proof.
  intros [a b c] [d e f] [x y z] H K. vunf.
  transitivity ((a * a + b * b + c * c) * (d * x + e * y + f * z) - (x * a + y * b + z * c) * (a * d + b * e + c * f)); [ring|rewrite H, K; ring].
Qed.
Lemma triple_second : forall n m r, dot m m = 1 -> dot r m = 0 -> dot (cross (cross n m) m) r = - dot n r.
Proof.
  intros [a b c] [d e f] [x y z] H K. vunf.
  transitivity (- ((d * d + e * e + f * f) * (a * x + b * y + c * z)) + (x * d + y * e + z * f) * (a * d + b * e + c * f)); [ring|rewrite H, K; ring].
Qed.
Lemma triple_norm1 : forall n m, dot n n = 1 -> norm (cross (cross n m) n) = norm (cross n m).
Proof. intros [a b c] [d e f] H. unfold norm. f_equal. vunf. 
  transitivity ((a*a+b*b+c*c) * ((b * f - c * e) * (b * f - c * e) + (c * d - a * f) * (c * d - a * f) + (a * e - b * d) * (a * e - b * d))); [ring|rewrite H; ring]. Qed.
Lemma triple_norm2 : forall n m, dot m m = 1 -> norm (cross (cross n m) m) = norm (cross n m).
Proof. intros [a b c] [d e f] H. unfold norm. f_equal. vunf. 
  transitivity ((d*d+e*e+f*f) * ((b * f - c * e) * (b * f - c * e) + (c * d - a * f) * (c * d - a * f) + (a * e - b * d) * (a * e - b * d))); [ring|rewrite H; ring]. Qed.

Lemma atan2_range : forall y x, 0 < y -> 0 < atan2 y x < PI.
Proof.
  intros y x Y. pose proof PI_RGT_0. destruct (Rle_lt_dec 0 x) as [X|X].
  - rewrite atan2_axis by auto. pose proof (atan_bound (x / y)). assert (0 <= x / y) by (apply Rmult_le_pos; auto; left; apply Rinv_0_lt_compat; auto).
    lra.
  - pose proof (atan2_bound y x) as B. assert (S : 0 < sin (atan2 y x)).
    { rewrite sin_atan2 by (right; lra). apply Rdiv_lt_0_compat; auto. apply sqrt_lt_R0. nra. }
    split.
    + apply Rnot_le_lt. intros L. assert (0 <= sin (- atan2 y x)) by (apply sin_ge_0; lra). rewrite sin_neg in *. lra.
    + destruct B as [_ [B|B]]; auto. rewrite B, sin_PI in S. lra.
Qed.
Lemma atan2_mirror : forall y x, 0 < y -> atan2 y (- x) = PI - atan2 y x.
Proof.
  intros y x Y. pose proof (atan2_range y x Y) as B. assert (N : x <> 0 \/ y <> 0) by (right; lra).
  assert (N' : - x <> 0 \/ y <> 0) by (right; lra). assert (E : - x * - x + y * y = x * x + y * y) by ring.
  apply angle_unique. { apply atan2_bound. } { lra. }
  - rewrite cos_atan2 by auto. rewrite E, Rtrigo_facts.cos_pi_minus, cos_atan2 by auto. unfold Rdiv. ring.
  - rewrite sin_atan2 by auto. rewrite E, Rtrigo_facts.sin_pi_minus, sin_atan2 by auto. reflexivity.
Qed.

Lemma fit_rows : forall svd a f, lapack svd -> PCAOrientation svd a None None = Ok f ->
  dot (r2 (p_axes f)) (r2 (p_axes f)) = 1 /\ dot (r0 (p_axes f)) (r2 (p_axes f)) = 0.
Proof.
  intros svd a f L F. destruct (fit_inv _ _ _ L F) as (_ & u & m & H & _ & _ & _ & _ & _ & _ & D).
  destruct (svd_v _ _ _ _ H) as (A0 & A1 & A2 & A3 & A4 & A5). auto.
Qed.

Section fits.
Set Default Proof Using "All".
Variables (svd1 svd2 : svd_fn) (st : stats) (a b : list vec3) (f g : pca) (z w : R).
Hypotheses (L1 : lapack svd1) (L2 : lapack svd2).
Hypotheses (F : PCAOrientation svd1 a None None = Ok f) (G : PCAOrientation svd2 b None None = Ok g).
Hypotheses (HZ : f_ppf st (95/100) 2 (INR (length a) - 2) = Some z) (Z0 : 0 <= z).
Hypotheses (HW : f_ppf st (95/100) 2 (INR (length b) - 2) = Some w) (W0 : 0 <= w).
Hypotheses (S1 : 0 < vz (p_s f)) (S2 : 0 < vz (p_s g)).
Let n := r2 (p_axes f).
Let m := r2 (p_axes g).
Lemma fit_noise : exists h k, 0 < vz h /\ 0 < vz k /\ hyperbolic_axes st f = Some h /\ hyperbolic_axes st g = Some k.
Proof.
  assert (P : forall svd arr p t, lapack svd -> PCAOrientation svd arr None None = Ok p ->
    f_ppf st (95/100) 2 (INR (length arr) - 2) = Some t -> 0 <= t -> 0 < vz (p_s p) -> exists h, 0 < vz h /\ hyperbolic_axes st p = Some h).
  { intros svd arr p t HL HF HT T0 SP. destruct (axes_third svd st arr p t HL HF HT T0) as (h & H & N3 & _ & V). exists h. split; auto.
    rewrite V. apply Rdiv_lt_0_compat; [|lra]. apply Rmult_lt_0_compat; [|apply Rmult_lt_0_compat; auto]. pose proof (k_nonneg t _ T0 N3). lra. }
  destruct (P _ _ _ _ L1 F HZ Z0 S1) as (h & H0 & H). destruct (P _ _ _ _ L2 G HW W0 S2) as (k & K0 & K). exists h, k. auto.
Qed.
Lemma unit_of : forall v, norm v <> 0 -> unit_vector v = Some (vscale (/ norm v) v).
Proof. intros v H. unfold unit_vector. destruct (Req_EM_T (norm v) 0); [contradiction|auto]. Qed.
Lemma distance_value : norm (cross n m) <> 0 -> exists h k, 0 < vz h /\ 0 < vz k /\ hyperbolic_axes st f = Some h /\ hyperbolic_axes st g = Some k /\
  let mean := acos (Rabs (dot n m)) in
  let e1 := atan2 (vz h) (dot m (r0 (p_axes f)) / norm (cross n m) * vx (p_s f)) in
  let e2 := atan2 (vz k) (- (dot n (r0 (p_axes g)) / norm (cross n m)) * vx (p_s g)) in
  distance st g f = Some (degrees mean, degrees (e1 + e2), mean / (e1 + e2)).
Proof.
  intros NZ. destruct fit_noise as (h & k & H0 & K0 & H & K). exists h, k. do 4 (split; auto). intros mean e1 e2.
  destruct (fit_rows _ _ _ L1 F) as (N1 & N2). destruct (fit_rows _ _ _ L2 G) as (M1 & M2). fold n in N1, N2. fold m in M1, M2.
  pose proof (atan2_range (vz h) (dot m (r0 (p_axes f)) / norm (cross n m) * vx (p_s f)) H0) as R1. fold e1 in R1.
  pose proof (atan2_range (vz k) (- (dot n (r0 (p_axes g)) / norm (cross n m)) * vx (p_s g)) K0) as R2. fold e2 in R2.
  assert (D1 : direction_error st (cross n m) f = Some e1).
  { unfold direction_error. fold n. rewrite unit_of by (rewrite triple_norm1; auto). cbn [obind]. unfold angular_error, axis_angular_error. rewrite H. cbn [obind].
    f_equal. unfold e1. f_equal. rewrite triple_norm1 by auto.
    replace (dot (vscale (/ norm (cross n m)) (cross (cross n m) n)) (r0 (p_axes f))) with (/ norm (cross n m) * dot (cross (cross n m) n) (r0 (p_axes f))) by (vunf; ring).
    rewrite triple_first by auto. unfold Rdiv. ring. }
  assert (D2 : direction_error st (cross n m) g = Some e2).
  { unfold direction_error. fold m. rewrite unit_of by (rewrite triple_norm2; auto). cbn [obind]. unfold angular_error, axis_angular_error. rewrite K. cbn [obind].
    f_equal. unfold e2. f_equal. rewrite triple_norm2 by auto.
    replace (dot (vscale (/ norm (cross n m)) (cross (cross n m) m)) (r0 (p_axes g))) with (/ norm (cross n m) * dot (cross (cross n m) m) (r0 (p_axes g))) by (vunf; ring).
    rewrite triple_second by auto. unfold Rdiv. ring. }
  unfold distance. fold n m. rewrite D1. cbn [obind]. rewrite D2. cbn [obind]. unfold fdiv. destruct (Req_EM_T (e1 + e2) 0); [lra|]. reflexivity.
Qed.
End fits.

Lemma unit_cauchy : forall n m, dot n n = 1 -> dot m m = 1 -> 0 <= Rabs (dot n m) <= 1.
Proof.
  intros n m N M. split; [apply Rabs_pos|]. pose proof (cross_norm n m N M) as C.
  assert (0 <= dot (cross n m) (cross n m)) by (destruct (cross n m) as [x y t]; vunf; nra).
  rewrite <- Rabs_R1. apply Rsqr_le_abs_0. unfold Rsqr. lra.
Qed.
Lemma three_squares : forall x y t, x * x + y * y + t * t = 0 -> x = 0 /\ y = 0 /\ t = 0.
Proof.
  intros x y t H. pose proof (Rle_0_sqr x). pose proof (Rle_0_sqr y). pose proof (Rle_0_sqr t). unfold Rsqr in *.
  repeat split; apply Rsqr_0_uniq; unfold Rsqr; lra.
Qed.
Lemma cross_parallel : forall n m, dot n n = 1 -> dot m m = 1 -> (norm (cross n m) = 0 <-> same_line n m).
Proof.
  intros [a b c] [d e f] N M. rewrite norm_zero_iff. split.
  - intros H. assert (C := cross_norm _ _ N M). rewrite H in C.
    assert (X : dot vzero vzero = 0) by (vunf; ring). rewrite X in C.
    set (k := dot (V3 a b c) (V3 d e f)) in *. assert (K : k = 1 \/ k = -1).
    { assert ((k - 1) * (k + 1) = 0) by lra. apply Rmult_integral in H0. destruct H0; [left|right]; lra. }
    unfold k in K. revert N M K. vunf. intros N M K. unfold same_line. destruct K as [K|K]; [left|right].
    + assert (Z : (a - d) * (a - d) + (b - e) * (b - e) + (c - f) * (c - f) = 0) by lra.
      apply three_squares in Z. destruct Z as (Z1 & Z2 & Z3). apply vec3_eq; cbn [vx vy vz]; lra.
    + assert (Z : (a + d) * (a + d) + (b + e) * (b + e) + (c + f) * (c + f) = 0) by lra.
      apply three_squares in Z. destruct Z as (Z1 & Z2 & Z3). apply vec3_eq; vunf; cbn [vx vy vz]; lra.
  - intros [H|H].
    + injection H as -> -> ->. vunf. f_equal; ring.
    + revert H. vunf. intros H. injection H as -> -> ->. f_equal; ring.
Qed.
Lemma deg_pos : forall x, 0 < x -> 0 < degrees x.
Proof. intros x X. unfold degrees. pose proof PI_RGT_0. apply Rdiv_lt_0_compat; lra. Qed.
Lemma deg_lt : forall x y, x < y -> degrees x < degrees y.
Proof. intros x y H. pose proof (deg_pos (y - x) ltac:(lra)) as P. unfold degrees in *. unfold Rdiv in *. lra. Qed.
Lemma deg_plus : forall x y, degrees (x + y) = degrees x + degrees y.
Proof. intros. unfold degrees, Rdiv. ring. Qed.
Lemma deg_pi : degrees PI = 180. Proof. unfold degrees. field. apply PI_neq0. Qed.

(** Two planes that are not parallel: the acute angle between them, an error of less than a
    full turn, and their ratio. *)
Theorem C220_angle : forall svd1 svd2 st a b f g z w, lapack svd1 -> lapack svd2 ->
  PCAOrientation svd1 a None None = Ok f -> PCAOrientation svd2 b None None = Ok g ->
  f_ppf st (95/100) 2 (INR (length a) - 2) = Some z -> 0 <= z -> f_ppf st (95/100) 2 (INR (length b) - 2) = Some w -> 0 <= w ->
  0 < vz (p_s f) -> 0 < vz (p_s g) -> ~ same_line (r2 (p_axes f)) (r2 (p_axes g)) ->
  exists angle error, distance st g f = Some (angle, error, angle / error) /\
    0 < angle <= 90 /\ cos (radians angle) = Rabs (dot (r2 (p_axes f)) (r2 (p_axes g))) /\ 0 < error < 360.
Proof.
  intros svd1 svd2 st a b f g z w L1 L2 F G HZ Z0 HW W0 S1 S2 NP.
  destruct (fit_rows _ _ _ L1 F) as (N1 & _). destruct (fit_rows _ _ _ L2 G) as (M1 & _).
  set (n := r2 (p_axes f)) in *. set (m := r2 (p_axes g)) in *.
  assert (NZ : norm (cross n m) <> 0) by (intros X; apply NP; now apply cross_parallel).
  destruct (distance_value svd1 svd2 st a b f g z w L1 L2 F G HZ Z0 HW W0 S1 S2 NZ) as (h & k & H0 & K0 & _ & _ & D).
  fold n m in D. cbv zeta in D. set (e1 := atan2 (vz h) _) in D. set (e2 := atan2 (vz k) _) in D.
  assert (R1 : 0 < e1 < PI) by (apply atan2_range; auto). assert (R2 : 0 < e2 < PI) by (apply atan2_range; auto).
  set (mean := acos (Rabs (dot n m))) in D. exists (degrees mean), (degrees (e1 + e2)). split.
  - rewrite D. f_equal. f_equal. unfold degrees. pose proof PI_RGT_0. field. lra.
  - pose proof (unit_cauchy n m N1 M1) as U. pose proof PI_RGT_0. rewrite radians_degrees. split; [|split].
    + split.
      * apply deg_pos. unfold mean. pose proof (acos_bound (Rabs (dot n m))) as B. destruct B as [[B|B] _]; auto. exfalso.
        assert (C1 : Rabs (dot n m) = 1) by (rewrite <- (cos_acos (Rabs (dot n m))) by lra; rewrite <- B; apply cos_0).
        apply NZ. unfold norm, nrm2. rewrite cross_norm by auto. replace (dot n m * dot n m) with (Rabs (dot n m) * Rabs (dot n m)).
        -- rewrite C1. rewrite <- sqrt_0. f_equal. ring.
        -- rewrite <- Rabs_mult. apply Rabs_pos_eq. apply Rle_0_sqr.
      * apply Rnot_lt_le. intros X. pose proof (acos_deg_90 (Rabs (dot n m)) ltac:(lra)) as Q. fold mean in Q. apply Q in X. lra.
    + unfold mean. apply cos_acos. lra.
    + split; [apply deg_pos; lra|]. pose proof (deg_lt (e1 + e2) (PI + PI) ltac:(lra)) as Q. rewrite (deg_plus PI PI), deg_pi in Q. lra.
Qed.
(** Parallel planes have none: the direction across the common line is 0/0. *)
Theorem C220_parallel : forall svd1 svd2 st a b f g, lapack svd1 -> lapack svd2 ->
  PCAOrientation svd1 a None None = Ok f -> PCAOrientation svd2 b None None = Ok g ->
  same_line (r2 (p_axes f)) (r2 (p_axes g)) -> distance st g f = None.
Proof.
  intros svd1 svd2 st a b f g L1 L2 F G P. destruct (fit_rows _ _ _ L1 F) as (N1 & _). destruct (fit_rows _ _ _ L2 G) as (M1 & _).
  apply cross_parallel in P; auto.
  unfold distance, direction_error at 1. unfold unit_vector.
  destruct (Req_EM_T (norm (cross (cross (r2 (p_axes f)) (r2 (p_axes g))) (r2 (p_axes f)))) 0) as [e|e]; [reflexivity|].
  exfalso. apply e. now rewrite triple_norm1.
Qed.

(** A report has an entry for each array, in order, measured from the plane of all points
    together; none for a single array; it stops without one. *)
Theorem C220_report : forall svd st arrays, lapack svd ->
  (arrays = [] -> report_distances svd st arrays = Raise IndexError) /\
  (forall a, arrays = [a] -> (3 <= length a)%nat -> report_distances svd st arrays = Ok []) /\
  (forall a, In a arrays -> (2 <= length arrays)%nat -> (length a < 3)%nat ->
     report_distances svd st arrays = Raise ValueError) /\
  ((2 <= length arrays)%nat -> (forall a, In a arrays -> (3 <= length a)%nat) ->
   exists g ds, PCAOrientation svd (concat arrays) None None = Ok g /\ report_distances svd st arrays = Ok ds /\
     length ds = length arrays /\
     forall i a z w, nth_error arrays i = Some a -> exists f, PCAOrientation svd a None None = Ok f /\
       (same_line (r2 (p_axes f)) (r2 (p_axes g)) -> nth_error ds i = Some None) /\
       (f_ppf st (95/100) 2 (INR (length a) - 2) = Some z -> 0 <= z ->
        f_ppf st (95/100) 2 (INR (length (concat arrays)) - 2) = Some w -> 0 <= w ->
        0 < vz (p_s f) -> 0 < vz (p_s g) -> ~ same_line (r2 (p_axes f)) (r2 (p_axes g)) ->
        exists angle error, nth_error ds i = Some (Some (angle, error, angle / error)) /\
          0 < angle <= 90 /\ cos (radians angle) = Rabs (dot (r2 (p_axes f)) (r2 (p_axes g))) /\ 0 < error < 360)).
Proof.
  intros svd st arrays HL.
  assert (FS : forall l, (forall a, In a l -> (3 <= length a)%nat) -> exists fs, fits_of svd l = Ok fs /\
    Forall2 (fun a f => PCAOrientation svd a None None = Ok f) l fs).
  { induction l as [|a l IH]; intros H; [exists []; split; [reflexivity|constructor]|].
    destruct (fit_exists svd a HL) as (f & F); [apply H; now left|].
    destruct IH as (fs & E & G); [intros x X; apply H; now right|].
    exists (f :: fs). cbn [fits_of]. rewrite F. cbn [rbind]. rewrite E. split; [reflexivity|]. now constructor. }
  split; [intros ->; reflexivity|]. split.
  { intros a -> L. destruct (fit_exists svd a HL L) as (f & F). unfold report_distances. cbn [rbind]. rewrite F. reflexivity. }
  split.
  { intros a I L S.
    assert (E : fits_of svd arrays = Raise ValueError).
    { clear L. induction arrays as [|b l IH]; [destruct I|]. cbn [fits_of].
      destruct (C05_too_few_points svd b None ltac:(intros u U; discriminate)) as [B _].
      destruct (Nat.lt_ge_cases (length b) 3) as [Q|Q]; [rewrite (proj2 B Q); reflexivity|].
      destruct I as [->|I]; [lia|]. destruct (fit_exists svd b HL Q) as (f & F). rewrite F. cbn [rbind].
      rewrite (IH I). reflexivity. }
    destruct arrays as [|a0 [|a1 t]]; [cbn in L; lia|cbn in L; lia|]. unfold report_distances. rewrite E. reflexivity. }
  intros L H. destruct (FS arrays H) as (fs & E & G).
  destruct arrays as [|a0 [|a1 t]]; [cbn in L; lia|cbn in L; lia|]. set (arrays := a0 :: a1 :: t) in *.
  destruct (fit_exists svd (concat arrays) HL) as (g & F).
  { unfold arrays. cbn [concat]. rewrite !app_length. specialize (H a0 ltac:(now left)). lia. }
  exists g, (distance_from_group st fs g). split; auto. split.
  { unfold report_distances. unfold arrays at 1. fold arrays. rewrite E. cbn [rbind]. rewrite F. reflexivity. }
  unfold distance_from_group. rewrite map_length. split; [clear -G; induction G; cbn; congruence|].
  intros i a z w N. 
  assert (K : exists f, nth_error fs i = Some f /\ PCAOrientation svd a None None = Ok f).
  { clear -G N. revert i N. induction G as [|x y l l' P G IH]; intros [|i] N; cbn in *; try discriminate; eauto. injection N as <-. eauto. }
  destruct K as (f & NF & FA). exists f. split; auto. rewrite nth_error_map, NF. cbn [option_map]. split.
  - intros P. f_equal. eapply C220_parallel; eauto.
  - intros HZ Z0 HW W0 S1 S2 NP.
    destruct (C220_angle svd svd st a (concat arrays) f g z w HL HL FA F HZ Z0 HW W0 S1 S2 NP) as (an & er & D & R).
    exists an, er. rewrite D. auto.
Qed.

(** the other sign of the first axis *)
Definition xneg (p : vec3) : vec3 := V3 (- vx p) (vy p) (vz p).
Definition flipped (svd : svd_fn) : svd_fn := fun a => let '(u, s, v) := svd a in (map xneg u, s, M3 (vneg (r0 v)) (r1 v) (r2 v)).
Lemma flipped_svd : forall a u s v, is_svd a u s v -> is_svd a (map xneg u) s (M3 (vneg (r0 v)) (r1 v) (r2 v)).
Proof.
  intros a u s v [f1 a0 a1 a2 b0 b1 b2 o s0 s1 s2].
  assert (SX : forall g, (forall p, g (xneg p) = g p) -> sumf g (map xneg u) = sumf g u) by (intros g H; rewrite sumf_map; now apply sumf_ext).
  assert (SN : forall g, (forall p, g (xneg p) = - g p) -> sumf g u = 0 -> sumf g (map xneg u) = 0).
  { intros g H Z. rewrite sumf_map. clear - H Z. assert (E : sumf (fun p => g (xneg p)) u = - sumf g u).
    { clear Z. induction u as [|p l IH]; simpl; [ring|]. rewrite IH, H. ring. } rewrite E, Z. ring. }
  split; auto; try (rewrite SX; auto; intros p; simpl; ring); try (apply SN; auto; intros p; simpl; ring).
  - rewrite f1, map_map. apply map_ext. intros p. unfold xneg. vunf. apply vec3_eq; simpl; ring.
  - destruct o as (h0 & h1 & h2 & h3 & h4 & h5). unfold orthonormal. cbn [r0 r1 r2]. vunf. repeat split; lra.
Qed.
Lemma flipped_ok : forall svd, lapack svd -> lapack (flipped svd).
Proof.
  intros svd HL a Ha. specialize (HL a Ha). unfold svd_ok_on, flipped in *. destruct (svd a) as [[u s] v]. now apply flipped_svd.
Qed.
Lemma flipped_fit : forall svd a f f', lapack svd -> PCAOrientation svd a None None = Ok f -> PCAOrientation (flipped svd) a None None = Ok f' ->
  p_s f' = p_s f /\ p_axes f' = M3 (vneg (r0 (p_axes f))) (r1 (p_axes f)) (r2 (p_axes f)).
Proof.
  intros svd a f f' HL F F'. destruct (fit_inv _ _ _ HL F) as (N & _). unfold PCAOrientation, run_svd in F, F'. rewrite centered_length in F, F'.
  destruct (Nat.ltb_spec (length a) 3); [lia|]. rewrite has_zero_ones, vdiv_ones in F, F'. unfold flipped in F'. destruct (svd (centered a)) as [[u s] v].
  cbn [rbind] in F, F'. injection F as <-. injection F' as <-. cbn [p_s p_axes]. auto.
Qed.
(** The decomposition may give the first axis either sign. The angle does not depend on it,
    the error does, unless the normal of the group is perpendicular to the first axis. *)
Theorem C220_sign : forall svd1 svd2 st a b f f' g z w, lapack svd1 -> lapack svd2 ->
  PCAOrientation svd1 a None None = Ok f -> PCAOrientation (flipped svd1) a None None = Ok f' -> PCAOrientation svd2 b None None = Ok g ->
  f_ppf st (95/100) 2 (INR (length a) - 2) = Some z -> 0 <= z -> f_ppf st (95/100) 2 (INR (length b) - 2) = Some w -> 0 <= w ->
  0 < vz (p_s f) -> 0 < vz (p_s g) -> ~ same_line (r2 (p_axes f)) (r2 (p_axes g)) ->
  lapack (flipped svd1) /\
  exists angle e e', distance st g f = Some (angle, e, angle / e) /\ distance st g f' = Some (angle, e', angle / e') /\
    (e = e' <-> dot (r2 (p_axes g)) (r0 (p_axes f)) = 0) /\
    (dot (r2 (p_axes g)) (r0 (p_axes f)) = 0 -> 90 < e).
Proof.
  intros svd1 svd2 st a b f f' g z w L1 L2 F F' G HZ Z0 HW W0 S1 S2 NP. pose proof (flipped_ok svd1 L1) as L1'. split; auto.
  destruct (flipped_fit svd1 a f f' L1 F F') as (PS & PA).
  assert (S1' : 0 < vz (p_s f')) by now rewrite PS.
  destruct (C220_angle _ _ st a b f g z w L1 L2 F G HZ Z0 HW W0 S1 S2 NP) as (an & e & D & A0 & CA & E0).
  assert (R2 : r2 (p_axes f') = r2 (p_axes f)) by now rewrite PA.
  assert (NP' : ~ same_line (r2 (p_axes f')) (r2 (p_axes g))) by now rewrite R2.
  destruct (C220_angle _ _ st a b f' g z w L1' L2 F' G HZ Z0 HW W0 S1' S2 NP') as (an' & e' & D' & A0' & CA' & E0').
  destruct (fit_rows _ _ _ L1 F) as (N1 & _). destruct (fit_rows _ _ _ L2 G) as (M1 & _).
  assert (NZ : norm (cross (r2 (p_axes f)) (r2 (p_axes g))) <> 0) by (intros X; apply NP; now apply cross_parallel).
  assert (NZ' : norm (cross (r2 (p_axes f')) (r2 (p_axes g))) <> 0) by now rewrite R2.
  destruct (distance_value _ _ st a b f g z w L1 L2 F G HZ Z0 HW W0 S1 S2 NZ) as (h & k & H0 & K0 & HH & HK & DV).
  destruct (distance_value _ _ st a b f' g z w L1' L2 F' G HZ Z0 HW W0 S1' S2 NZ') as (h' & k' & H0' & K0' & HH' & HK' & DV').
  cbv zeta in DV, DV'. rewrite R2 in DV'. rewrite D in DV. rewrite D' in DV'.
  assert (SH : vz h' = vz h).
  { destruct (axes_third _ st a f z L1 F HZ Z0) as (x & X1 & _ & _ & X2). destruct (axes_third _ st a f' z L1' F' HZ Z0) as (y & Y1 & _ & _ & Y2).
    rewrite HH in X1. injection X1 as <-. rewrite HH' in Y1. injection Y1 as <-. now rewrite X2, Y2, PS. }
  assert (SK : k' = k) by (rewrite HK in HK'; now injection HK').
  rewrite SH, SK, PS, PA in DV'. cbn [r0] in DV'.
  set (d := norm (cross (r2 (p_axes f)) (r2 (p_axes g)))) in *. set (l := dot (r2 (p_axes g)) (r0 (p_axes f))) in *.
  replace (dot (r2 (p_axes g)) (vneg (r0 (p_axes f))) / d * vx (p_s f)) with (- (l / d * vx (p_s f))) in DV' by (unfold l; vunf; unfold Rdiv; ring).
  rewrite atan2_mirror in DV' by auto.
  set (x := l / d * vx (p_s f)) in *. set (t := atan2 (vz h) x) in *. set (e2 := atan2 (vz k) _) in *.
  injection DV as DA DE _. injection DV' as DA' DE' _.
  exists an, e, e'. split; auto. split; [rewrite D'; rewrite DA, DA'; reflexivity|].
  assert (D0 : 0 < d) by (pose proof (sqrt_pos (nrm2 (cross (r2 (p_axes f)) (r2 (p_axes g))))) as Q; fold (norm (cross (r2 (p_axes f)) (r2 (p_axes g)))) in Q; fold d in Q; lra).
  assert (SX : 0 < vx (p_s f)).
  { destruct (fit_inv _ _ _ L1 F) as (_ & u & mm & HS & _). pose proof (svd_s01 _ _ _ _ HS). pose proof (svd_s12 _ _ _ _ HS). lra. }
  assert (X0 : l = 0 <-> x = 0).
  { unfold x. split; intros Q.
    - rewrite Q. unfold Rdiv. ring.
    - apply Rmult_integral in Q. destruct Q as [Q|Q]; [|lra]. apply Rmult_integral in Q. destruct Q as [Q|Q]; auto.
      exfalso. revert Q. apply Rinv_neq_0_compat. lra. }
  assert (T0 : x = 0 <-> t = PI / 2).
  { split; intros Q.
    - unfold t. rewrite Q, atan2_axis by (auto; lra). replace (0 / vz h) with 0 by (field; lra). rewrite atan_0. ring.
    - pose proof (cos_atan2 (vz h) x ltac:(right; lra)) as C. fold t in C. rewrite Q, cos_PI2 in C. symmetry in C.
      apply Rmult_integral in C. destruct C as [C|C]; auto. exfalso. revert C. apply Rinv_neq_0_compat.
      assert (0 < sqrt (x * x + vz h * vz h)) by (apply sqrt_lt_R0; nra). lra. }
  assert (R2' : 0 < e2 < PI) by (apply atan2_range; auto).
  split.
  - rewrite X0, T0, DE, DE'. split; intros Q.
    + apply (f_equal radians) in Q. rewrite !radians_degrees in Q. lra.
    + rewrite Q. f_equal. field.
  - intros Q. apply X0, T0 in Q. rewrite DE, Q. pose proof (deg_lt (PI / 2) (PI / 2 + e2) ltac:(lra)) as B.
    replace 90 with (degrees (PI / 2)); auto. unfold degrees. pose proof PI_RGT_0. field. lra.
Qed.
(** the tilted and the level points of the examples *)
Example C220_ex : exists f f' g, PCAOrientation svd_ref tilted_data None None = Ok f /\ PCAOrientation (flipped svd_ref) tilted_data None None = Ok f' /\
  PCAOrientation svd_ref (axis_data 3 2 1) None None = Ok g /\
  0 < vz (p_s f) /\ 0 < vz (p_s g) /\ ~ same_line (r2 (p_axes f)) (r2 (p_axes g)) /\
  f_ppf (const_stats 2) (95/100) 2 (INR (length tilted_data) - 2) = Some 2.
Proof.
  destruct tilted_fit as (f & F & NF & _ & P). destruct (axis_fit 3 2 1) as (g & G).
  destruct (fit_exists (flipped svd_ref) tilted_data (flipped_ok _ lapack_ref)) as (f' & F'). { simpl; lia. }
  exists f, f', g. do 4 (split; auto).
  split; [rewrite (axis_singular _ 3 2 1 _ lapack_ref ltac:(lra) ltac:(lra) G); cbn [vz]; pose proof (sqrt_lt_R0 2 ltac:(lra)); lra|].
  split; [|reflexivity].
  pose proof (axis_normal _ g lapack_ref G) as NG.
  destruct (C09_normal svd_ref tilted_data ones f lapack_ref F) as (_ & _ & SF & _).
  destruct (C09_normal svd_ref (axis_data 3 2 1) ones g lapack_ref G) as (_ & _ & SG & _).
  rewrite NF in SF. rewrite NG in SG. intros SL.
  assert (X : vx (r2 (p_axes f)) = 0).
  { assert (Y : vx (r2 (p_axes g)) = 0) by (destruct SG as [E|E]; apply (f_equal vx) in E; revert E; vunf; cbn; intros; lra).
    destruct SL as [E|E]; apply (f_equal vx) in E; rewrite E; auto. revert Y. vunf. cbn. intros. lra. }
  destruct SF as [E|E]; apply (f_equal vx) in E; revert E; vunf; cbn; intros; lra.
Qed.

(** the report on both, and on too few points *)
Example C220_report_ex : exists g h d, PCAOrientation svd_ref (tilted_data ++ axis_data 3 2 1 ++ []) None None = Ok g /\
  PCAOrientation svd_ref tilted_data None None = Ok h /\
  report_distances svd_ref (const_stats 2) [tilted_data; axis_data 3 2 1] = Ok [distance (const_stats 2) g h; d] /\
  report_distances svd_ref (const_stats 2) [tilted_data; [V3 1 2 3]] = Raise ValueError /\
  report_distances svd_ref (const_stats 2) [tilted_data] = Ok [].
Proof.
  destruct (fit_exists svd_ref tilted_data lapack_ref) as (h & F); [cbn; lia|].
  destruct (axis_fit 3 2 1) as (k & G).
  destruct (fit_exists svd_ref (tilted_data ++ axis_data 3 2 1 ++ []) lapack_ref) as (g & FG); [rewrite app_length; cbn; lia|].
  exists g, h, (distance (const_stats 2) g k). split; auto. split; auto. split.
  { unfold report_distances, fits_of. rewrite F. cbn [rbind]. rewrite G. cbn [rbind concat]. rewrite FG. reflexivity. }
  split.
  - destruct (C220_report svd_ref (const_stats 2) [tilted_data; [V3 1 2 3]] lapack_ref) as (_ & _ & Q & _).
    apply (Q [V3 1 2 3]); cbn; auto; lia.
  - destruct (C220_report svd_ref (const_stats 2) [tilted_data] lapack_ref) as (_ & Q & _). apply (Q tilted_data); cbn; auto; lia.
Qed.

Print Assumptions C220_angle.
Print Assumptions C220_parallel.
Print Assumptions C220_report.
Print Assumptions C220_sign.
