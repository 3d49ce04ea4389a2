(** Properties C159-C161: the density of bingham.py, its grid, its series. *)
From Coq Require Import Reals Lra Lia List Psatz Arith Bool Permutation.
From Verif Require Import RVec Trig SpecPlane MPca LSvd MAxes MSphere LRecon MRecon PRecon MHyper PCoord MBingham.
Import ListNotations.
Open Scope R_scope.

(** * C159 the density *)
(** the exponential of minus a quadratic form with the given weights along three directions *)
Definition axial_density (c : R) (z : vec3) (m : mat3) (x : vec3) : R :=
  c * exp (- (vx z * (dot x (r0 m) * dot x (r0 m)) + vy z * (dot x (r1 m) * dot x (r1 m)) + vz z * (dot x (r2 m) * dot x (r2 m)))).
(** squared over the square of the third *)
Definition weights (h : vec3) : vec3 := V3 (vx h / (vz h * vz h)) (vy h / (vz h * vz h)) (/ vz h).
Definition const_of (hyp1f1 : R -> R -> R -> option R) (h : vec3) : option R := hyp1f1 (vz h * vz h / vx h) (vz h * vz h / vy h) (vz h).

Theorem C159_value : forall F h axes p, 0 < vx h -> 0 < vy h -> 0 < vz h ->
  (forall c, const_of F h = Some c -> c <> 0 -> bingham_pdf F h axes p = Some (axial_density c (weights h) (mT axes) (sph2cart p))) /\
  (const_of F h = None \/ const_of F h = Some 0 -> bingham_pdf F h axes p = None).
Proof.
  intros F h axes p H0 H1 H2. unfold bingham_pdf, concentration, fdiv, const_of.
  assert (QA : 0 < vz h * vz h) by nra.
  assert (NZ : forall x, 0 < x -> vz h * vz h / x <> 0). { intros x X. apply Rgt_not_eq, Rmult_lt_0_compat; [auto|now apply Rinv_0_lt_compat]. }
  destruct (Req_EM_T (vx h) 0); [lra|]. destruct (Req_EM_T (vy h) 0); [lra|]. destruct (Req_EM_T (vz h) 0); [lra|]. cbn [obind vx vy vz].
  pose proof (NZ _ H0) as N0. pose proof (NZ _ H1) as N1. pose proof (NZ _ H2) as N2.
  destruct (Req_EM_T (vz h * vz h / vx h) 0); [contradiction|]. destruct (Req_EM_T (vz h * vz h / vy h) 0); [contradiction|]. destruct (Req_EM_T (vz h * vz h / vz h) 0); [contradiction|]. cbn [obind].
  assert (IZ : forall a, a <> 0 -> 1 / a <> 0) by (intros a A; apply Rmult_integral_contrapositive_currified; [lra|now apply Rinv_neq_0_compat]).
  destruct (Req_EM_T (1 / (vz h * vz h / vx h)) 0) as [Q|_]; [now apply IZ in Q|]. destruct (Req_EM_T (1 / (vz h * vz h / vy h)) 0) as [Q|_]; [now apply IZ in Q|].
  destruct (Req_EM_T (1 / (vz h * vz h / vz h)) 0) as [Q|_]; [now apply IZ in Q|]. cbn [obind].
  replace (1 / (1 / (vz h * vz h / vx h))) with (vz h * vz h / vx h) by (field; lra).
  replace (1 / (1 / (vz h * vz h / vy h))) with (vz h * vz h / vy h) by (field; lra).
  replace (1 / (1 / (vz h * vz h / vz h))) with (vz h) by (field; lra).
  split.
  - intros c -> C. cbn [obind]. destruct (Req_EM_T c 0); [contradiction|]. cbn [obind]. set (x := sph2cart p).
    set (q := dot _ x). pose proof (exp_pos q) as EP.
    destruct (Req_EM_T (1 / c * exp q) 0) as [Q|_]; [exfalso; apply Rmult_integral in Q; destruct Q as [Q|Q]; [now apply (IZ c C)|lra]|].
    f_equal. unfold axial_density. set (s := _ + _). assert (E : q = s).
    { unfold q, s, weights. destruct axes as [[] [] []], x. munf. field. lra. }
    rewrite <- E, exp_Ropp. field. split; [lra|auto].
  - intros [-> | ->]; [reflexivity|]. cbn [obind]. destruct (Req_EM_T 0 0); [reflexivity|lra].
Qed.

(** opposite directions have the same density *)
Theorem C159_axial : forall F h axes lon lat, bingham_pdf F h axes (lon + PI, - lat) = bingham_pdf F h axes (lon, lat).
Proof.
  intros. unfold bingham_pdf. assert (E : sph2cart (lon + PI, - lat) = vneg (sph2cart (lon, lat))).
  { unfold sph2cart. rewrite cos_neg, sin_neg, neg_cos, neg_sin. apply vec3_eq; vunf; ring. }
  rewrite E. set (x := sph2cart _). assert (Q : forall Z, dot (vm (vmul (vm (vneg x) axes) Z) (mT axes)) (vneg x) = dot (vm (vmul (vm x axes) Z) (mT axes)) x).
  { intros Z. destruct axes as [[] [] []], x, Z. munf. ring. }
  destruct (concentration h); [|reflexivity]. cbn [obind]. repeat (match goal with |- obind ?a _ = obind ?a _ => destruct a; [|reflexivity]; cbn [obind] end).
  rewrite Q. reflexivity.
Qed.

(** the components of a unit vector along the columns *)
Lemma parseval_cols : forall axes x, orthonormal axes -> unit3 x ->
  let m := mT axes in dot x (r0 m) * dot x (r0 m) + dot x (r1 m) * dot x (r1 m) + dot x (r2 m) * dot x (r2 m) = 1.
Proof.
  intros axes x O U m. pose proof (parseval m x (orthonormal_T _ O)) as P. rewrite !(dot_comm x), P. exact U.
Qed.
Lemma only_third : forall axes x, orthonormal axes -> unit3 x -> let m := mT axes in
  dot x (r0 m) = 0 -> dot x (r1 m) = 0 -> same_line x (r2 m).
Proof.
  intros axes x O U m A B. pose proof (parseval_cols axes x O U) as P. cbv zeta in P. fold m in P. rewrite A, B in P.
  assert (E := orthonormal_expand m x (orthonormal_T _ O)). unfold vm, mv in E. cbn [vx vy vz] in E.
  rewrite !(dot_comm _ x), A, B in E. set (t := dot x (r2 m)) in *. assert (T : (t - 1) * (t + 1) = 0) by lra. apply Rmult_integral in T.
  destruct T as [T|T]; [left|right]; rewrite <- E; [replace t with 1 by lra|replace t with (-1) by lra]; destruct (r2 m); apply vec3_eq; vunf; ring.
Qed.
(** the greatest density is along the third column of the axes, the least along the first *)
Theorem C159_peak : forall F h axes c p v, orthonormal axes -> 0 < vz h -> vz h <= vy h -> vy h <= vx h ->
  const_of F h = Some c -> 0 < c -> bingham_pdf F h axes p = Some v ->
  c * exp (- (vx h / (vz h * vz h))) <= v <= c * exp (- / vz h) /\
  (same_line (sph2cart p) (r2 (mT axes)) -> v = c * exp (- / vz h)) /\
  (same_line (sph2cart p) (r0 (mT axes)) -> v = c * exp (- (vx h / (vz h * vz h)))) /\
  (vz h < vy h -> v = c * exp (- / vz h) -> same_line (sph2cart p) (r2 (mT axes))).
Proof.
  intros F h axes c p v O H2 H1 H0 C CP E. rewrite (proj1 (C159_value F h axes p ltac:(lra) ltac:(lra) H2) c C ltac:(lra)) in E. injection E as <-.
  set (x := sph2cart p). pose proof (sph2cart_unit p) as U. fold x in U. pose proof (parseval_cols axes x O U) as P. cbv zeta in P.
  pose proof (orthonormal_T _ O) as OT. unfold axial_density. set (m := mT axes) in *. set (z := weights h).
  assert (Z2 : vz z = / vz h) by reflexivity. assert (IP : 0 < / (vz h * vz h)) by (apply Rinv_0_lt_compat; nra).
  assert (Z0 : vx z = vx h / (vz h * vz h)) by reflexivity. assert (Z1 : vy z = vy h / (vz h * vz h)) by reflexivity.
  assert (Z2' : vz z = vz h / (vz h * vz h)) by (rewrite Z2; field; lra).
  assert (ZA : vz z <= vy z) by (rewrite Z1, Z2'; apply Rmult_le_compat_r; lra). assert (ZB : vy z <= vx z) by (rewrite Z1, Z0; apply Rmult_le_compat_r; lra).
  rewrite <- Z0, <- Z2. set (a := dot x (r0 m)) in *. set (b := dot x (r1 m)) in *. set (d := dot x (r2 m)) in *.
  assert (EI : forall s t, s <= t -> c * exp s <= c * exp t). { intros s t [L|L]; [left; apply Rmult_lt_compat_l; [auto|now apply exp_increasing]|right; now rewrite L]. }
  assert (EJ : forall s t, c * exp s = c * exp t -> s = t). { intros s t Q. apply Rmult_eq_reg_l in Q; [|lra]. now apply exp_inv. }
  pose proof (Rle_0_sqr a) as A2. pose proof (Rle_0_sqr b) as B2. pose proof (Rle_0_sqr d) as D2. unfold Rsqr in *.
  assert (UP : 0 <= (vx z - vy z) * (b * b) + (vx z - vz z) * (d * d)) by (apply Rplus_le_le_0_compat; apply Rmult_le_pos; lra).
  assert (LO : 0 <= (vx z - vz z) * (a * a) + (vy z - vz z) * (b * b)) by (apply Rplus_le_le_0_compat; apply Rmult_le_pos; lra).
  assert (DD : d * d = 1 - a * a - b * b) by lra.
  split; [split; apply EI; rewrite DD in *; lra|]. split; [|split].
  - intros S. f_equal. f_equal. f_equal. assert (d * d = 1 /\ a = 0 /\ b = 0).
    { destruct OT as (_ & _ & h22 & _ & h02 & h12). unfold a, b, d. destruct S as [-> | ->]; rewrite ?dot_neg_l, ?(dot_comm (r2 m) (r0 m)), ?(dot_comm (r2 m) (r1 m)), h02, h12, h22; repeat split; ring. }
    destruct H as (-> & -> & ->). ring.
  - intros S. f_equal. f_equal. f_equal. assert (a * a = 1 /\ b = 0 /\ d = 0).
    { destruct OT as (h00 & _ & _ & h01 & h02 & _). unfold a, b, d. destruct S as [-> | ->]; rewrite ?dot_neg_l, h00, h01, h02; repeat split; ring. }
    destruct H as (-> & -> & ->). ring.
  - intros HS E. apply EJ in E. assert (ZS : vz z < vy z) by (rewrite Z1, Z2'; apply Rmult_lt_compat_r; lra).
    assert (Q0 : (vx z - vz z) * (a * a) + (vy z - vz z) * (b * b) = 0) by (rewrite DD in *; lra).
    assert (0 <= (vx z - vz z) * (a * a)) by (apply Rmult_le_pos; lra). assert (0 <= (vy z - vz z) * (b * b)) by (apply Rmult_le_pos; lra).
    assert (K : forall k t, 0 < k -> k * (t * t) = 0 -> t = 0) by (intros k t KP Q; apply Rmult_integral in Q; destruct Q as [Q|Q]; [lra|]; apply Rmult_integral in Q; tauto).
    apply only_third; auto; fold m; [apply (K (vx z - vz z))|apply (K (vy z - vz z))]; fold a; fold b; lra.
Qed.
(** the pole of the fit is a peak exactly when it is the third column as well *)
Theorem C159_pole_iff : forall F h axes c p, orthonormal axes -> 0 < vz h -> vz h < vy h -> vy h <= vx h ->
  const_of F h = Some c -> 0 < c -> cart2sph (r2 axes) = Some p ->
  ((forall q v w, bingham_pdf F h axes q = Some v -> bingham_pdf F h axes p = Some w -> v <= w) <-> same_line (r2 axes) (r2 (mT axes))).
Proof.
  intros F h axes c p O H2 H1 H0 C CP E.
  assert (D : forall q, exists v, bingham_pdf F h axes q = Some v) by (intros q; eexists; apply (proj1 (C159_value F h axes q ltac:(lra) ltac:(lra) H2) c C); lra).
  destruct (cart2sph_spec (r2 axes) (orthonormal_unit2 _ O)) as (p' & E' & R). rewrite E in E'. injection E' as <-. destruct (D p) as [w W].
  destruct (C159_peak F h axes c p w O H2 ltac:(lra) H0 C CP W) as (B & K & _ & J). rewrite R in *. split.
  - intros M. apply J; [auto|]. destruct (cart2sph_spec (r2 (mT axes)) (orthonormal_unit2 _ (orthonormal_T _ O))) as (q & _ & RQ). destruct (D q) as [v V].
    destruct (C159_peak F h axes c q v O H2 ltac:(lra) H0 C CP V) as (_ & K' & _). specialize (K' ltac:(rewrite RQ; now left)). specialize (M q v w V W). lra.
  - intros S q v w' V W'. rewrite W in W'. injection W' as <-. rewrite (K S). apply (C159_peak F h axes c q v O H2 ltac:(lra) H0 C CP V).
Qed.
Lemma rad90 : sin (radians 90) = 1 /\ cos (radians 90) = 0.
Proof. unfold radians. replace (90 * (PI / 180)) with (PI / 2) by field. replace (90 * PI / 180) with (PI / 2) by field. split; [apply sin_PI2|apply cos_PI2]. Qed.
(** a vertical plane striking north, its errors equal: the density is greater along the
    strike than at the pole *)
Theorem C159_pole_refuted : forall F : R -> R -> R -> option R, (forall a b x, exists c, F a b x = Some c /\ 0 < c) ->
  exists pl h0 h1 h2 p q v w, ReconstructedPlane 0 90 90 [60; 60] 1 = Some pl /\ rp_hyperbolic pl = Some [h0; h1; h2] /\
  cart2sph (rp_normal pl) = Some p /\ dot (sph2cart q) (rp_normal pl) = 0 /\
  bingham_pdf F (V3 h0 h1 h2) (rp_axes pl) p = Some v /\ bingham_pdf F (V3 h0 h1 h2) (rp_axes pl) q = Some w /\ v < w.
Proof.
  intros F HF. destruct (recon_value 0 90 90 [60; 60] 1) as (pl & E & _ & _ & _ & _ & N & A & H).
  destruct (Rlt_dec 90 90); [lra|]. destruct rad90 as [S9 C9].
  assert (NV : rp_normal pl = ex). { rewrite N. unfold plane_normal, azimuth_vec. rewrite Rplus_0_l, S9, C9. apply vec3_eq; vunf; ring. }
  cbv zeta in A. destruct (Rlt_dec 90 0); [lra|].
  assert (MV : rake_dir 0 90 90 = ez). { unfold rake_dir. rewrite up_dip_components, S9, C9. apply vec3_eq; vunf; ring. }
  rewrite MV, NV in A. destruct (Rlt_dec (vz ex) 0) as [X|_]; [cbn in X; lra|].
  set (k := sqrt 3). assert (K1 : 1 < k) by (unfold k; rewrite <- sqrt_1 at 1; apply sqrt_lt_1; lra).
  assert (T : over_tan 1 (radians 60 / 2) = Some k).
  { unfold over_tan, fdiv. replace (radians 60 / 2) with (PI / 6) by (unfold radians; field). rewrite sin_PI6, cos_PI6. destruct (Req_EM_T (1 / 2) 0); [lra|]. f_equal. unfold k. field. }
  cbn [map rev app] in H. cbn [sequence] in H. rewrite !T in H. cbn [sequence option_map app] in H.
  destruct (HF (1 * 1 / k) (1 * 1 / k) 1) as (c & FC & CP).
  assert (CO : const_of F (V3 k k 1) = Some c) by exact FC.
  destruct (cart2sph_spec ex) as (p & EP & SP). { unfold unit3. vunf. ring. }
  destruct (cart2sph_spec ey) as (q & EQ & SQ). { unfold unit3. vunf. ring. }
  assert (V : forall r, bingham_pdf F (V3 k k 1) (rp_axes pl) r = Some (axial_density c (weights (V3 k k 1)) (mT (rp_axes pl)) (sph2cart r))).
  { intros r. apply (proj1 (C159_value F (V3 k k 1) (rp_axes pl) r ltac:(cbn; lra) ltac:(cbn; lra) ltac:(cbn; lra)) c CO). lra. }
  exists pl, k, k, 1, p, q. eexists. eexists. split; [auto|]. split; [auto|]. split; [now rewrite NV|]. split; [rewrite SQ, NV; vunf; ring|].
  split; [apply V|]. split; [apply V|]. rewrite SP, SQ, A. unfold axial_density, weights. apply Rmult_lt_compat_l; [auto|]. apply exp_increasing.
  munf. replace (1 * 1) with 1 by ring. rewrite Rinv_1. unfold Rdiv. rewrite Rinv_1. lra.
Qed.

(** * C160 the grid *)
Lemma linspace_nth : forall lo hi m i, (i < m)%nat -> nth_error (linspace lo hi m) i = Some (lo + INR i * (hi - lo) / INR (m - 1)).
Proof.
  intros lo hi m i I. unfold linspace. rewrite nth_error_map, (nth_error_nth' _ 0%nat) by now rewrite seq_length.
  rewrite seq_nth by auto. cbn [option_map Nat.add]. f_equal. unfold Rdiv. ring.
Qed.
(** longitude along the rows, latitude along the columns, both from -pi/2 to pi/2 *)
Theorem C160_grid : forall nrows ncols i j, (i < ncols)%nat -> (j < nrows)%nat ->
  let at_ (a : list (list R)) := match nth_error a i with Some r => nth_error r j | None => None end in
  let g := regular_grid nrows ncols in
  length (fst g) = ncols /\ length (snd g) = ncols /\
  at_ (fst g) = Some (- (PI / 2) + INR i * PI / INR (ncols - 1)) /\ at_ (snd g) = Some (- (PI / 2) + INR j * PI / INR (nrows - 1)).
Proof.
  intros nr nc i j I J at_ g. unfold at_, g, regular_grid. cbn [fst snd].
  assert (LL : forall lo hi m, length (linspace lo hi m) = m) by (intros; unfold linspace; now rewrite map_length, seq_length).
  rewrite !map_length, !LL. split; [auto|]. split; [auto|]. rewrite !nth_error_map, linspace_nth by auto. cbn [option_map].
  rewrite nth_error_map, linspace_nth by auto. cbn [option_map]. replace (PI / 2 - - (PI / 2)) with PI by field. auto.
Qed.
(** every coordinate of the rectangle is within half a step of one of the grid *)
Lemma near_grid : forall m x, (1 < m)%nat -> - (PI / 2) <= x <= PI / 2 ->
  exists i, (i < m)%nat /\ Rabs (x - (- (PI / 2) + INR i * PI / INR (m - 1))) <= PI / (2 * INR (m - 1)).
Proof.
  intros m x M X. pose proof PI_RGT_0 as PP. assert (N : 0 < INR (m - 1)) by (apply lt_0_INR; lia).
  set (N1 := INR (m - 1)) in *. set (t := (x + PI / 2) * N1 / PI).
  assert (TX : x = - (PI / 2) + t * PI / N1) by (unfold t; field; lra).
  assert (T : 0 <= t <= N1).
  { unfold t. split; [apply Rmult_le_pos; [apply Rmult_le_pos; lra|left; now apply Rinv_0_lt_compat]|].
    apply (Rmult_le_reg_r PI); [auto|]. replace ((x + PI / 2) * N1 / PI * PI) with ((x + PI / 2) * N1) by (field; lra). rewrite (Rmult_comm N1). apply Rmult_le_compat_r; lra. }
  assert (K : exists i, (i <= m - 1)%nat /\ Rabs (t - INR i) <= 1 / 2).
  { destruct (base_Int_part t) as [A B]. set (z := Int_part t) in *.
    assert (Z0 : (0 <= z)%Z) by (assert (-1 < IZR z) by lra; apply lt_IZR in H; lia). assert (ZE : IZR z = INR (Z.to_nat z)) by (rewrite INR_IZR_INZ, Z2Nat.id; auto). rewrite ZE in *. set (i := Z.to_nat z) in *.
    assert (I : (i <= m - 1)%nat) by (apply INR_le; fold N1; lra).
    destruct (Rle_dec (t - INR i) (1 / 2)) as [L|L]; [exists i; split; [auto|apply Rabs_le; lra]|].
    exists (S i). split; [|rewrite S_INR; apply Rabs_le; lra]. assert (INR i < N1) by lra. apply INR_lt in H. lia. }
  destruct K as (i & I & B). exists i. split; [lia|]. rewrite TX.
  replace (- (PI / 2) + t * PI / N1 - (- (PI / 2) + INR i * PI / N1)) with ((t - INR i) * (PI / N1)) by (field; lra).
  assert (Q : 0 < PI / N1) by (apply Rmult_lt_0_compat; [auto|now apply Rinv_0_lt_compat]).
  rewrite Rabs_mult, (Rabs_pos_eq (PI / N1)) by lra. replace (PI / (2 * N1)) with (1 / 2 * (PI / N1)) by (field; lra). apply Rmult_le_compat_r; lra.
Qed.
(** so every direction or its opposite, for which the density is the same, is that near to
    a point of the grid: half a sphere is enough *)
Theorem C160_cover : forall n u, (1 < n)%nat -> unit3 u -> exists lon lat i j x y,
  same_line u (sph2cart (lon, lat)) /\ (i < n)%nat /\ (j < n)%nat /\
  nth_error (fst (default_grid n)) i = Some x /\ nth_error (snd (default_grid n)) i = Some y /\
  (forall a b, nth_error x j = Some a -> nth_error y j = Some b ->
     Rabs (lon - a) <= PI / (2 * INR (n - 1)) /\ Rabs (lat - b) <= PI / (2 * INR (n - 1))).
Proof.
  intros n u N U. assert (K : exists p, same_line u (sph2cart p) /\ - (PI / 2) <= fst p <= PI / 2 /\ - (PI / 2) <= snd p <= PI / 2).
  { assert (K : forall v, unit3 v -> 0 <= vx v -> exists p, sph2cart p = v /\ - (PI / 2) <= fst p <= PI / 2 /\ - (PI / 2) <= snd p <= PI / 2).
    { intros v V X. destruct (cart2sph_spec v V) as (p & E & S). exists p. split; [auto|]. destruct (cart2sph_range _ _ E) as [R1 R2]. split; [|auto].
      assert (C : 0 <= cos (snd p)) by (apply cos_ge_0; lra). pose proof PI_RGT_0.
      unfold cart2sph in E. rewrite norm_unit in E by auto. destruct (Req_EM_T 1 0); [lra|]. injection E as <-. cbn [fst snd] in *.
      unfold atan2. destruct (Rlt_dec 0 (vx v)) as [P|P]; [pose proof (atan_bound (vy v / vx v)); lra|].
      destruct (Rlt_dec (vx v) 0) as [Q|Q]; [lra|].
      repeat match goal with |- context [if ?d then _ else _] => destruct d end; lra. }
    destruct (Rle_dec 0 (vx u)) as [P|P].
    - destruct (K u U P) as (p & <- & B). exists p. split; [now left|auto].
    - destruct (K (vneg u)) as (p & E & B); [now apply unit_neg|vunf; lra|]. exists p. split; [right; rewrite E; destruct u; apply vec3_eq; vunf; ring|auto]. }
  destruct K as ([lon lat] & S & X & Y). cbn [fst snd] in X, Y. destruct (near_grid n lon N X) as (i & I & A). destruct (near_grid n lat N Y) as (j & J & B).
  destruct (C160_grid n n i j I J) as (_ & _ & G1 & G2). cbv zeta in G1, G2. unfold default_grid.
  destruct (nth_error (fst (regular_grid n n)) i) as [x|] eqn:EX; [|discriminate]. destruct (nth_error (snd (regular_grid n n)) i) as [y|] eqn:EY; [|discriminate].
  exists lon, lat, i, j, x, y. do 5 (split; [auto|]). intros a b Ea Eb. rewrite G1 in Ea. rewrite G2 in Eb. injection Ea as <-. injection Eb as <-. auto.
Qed.
(** but the density accepts arrays of coordinates only if the first and the last dimension
    are 3, and then what it returns has twice as many dimensions *)
Lemma np_dot_33 : forall a, np_dot a [3; 3]%nat = if (last a O =? 3)%nat then Ok (removelast a ++ [3%nat]) else Raise ValueError.
Proof. reflexivity. Qed.
Theorem C160_shapes : forall s, 
  (s = [] -> pdf_shape s = Ok []) /\
  (s <> [] -> hd O s = 3%nat /\ last s O = 3%nat -> pdf_shape s = Ok (3%nat :: removelast s ++ rev (tl s) ++ [3%nat])) /\
  (s <> [] -> ~ (hd O s = 3%nat /\ last s O = 3%nat) -> pdf_shape s = Raise ValueError).
Proof.
  intros s. assert (K : s <> [] -> pdf_shape s = if (last s O =? 3)%nat then (if (hd O s =? 3)%nat then Ok (3%nat :: removelast s ++ rev (tl s) ++ [3%nat]) else Raise ValueError) else Raise ValueError).
  { intros NE. destruct s as [|a s]; [congruence|]. unfold pdf_shape. rewrite rev_involutive, np_dot_33.
    change (last (3%nat :: a :: s) 0%nat) with (last (a :: s) 0%nat). destruct (last (a :: s) 0 =? 3)%nat; [|reflexivity]. cbn [rbind].
    rewrite np_dot_33, last_last, removelast_last. cbn [Nat.eqb rbind]. rewrite np_dot_33, last_last, removelast_last. cbn [Nat.eqb rbind].
    unfold np_dot. rewrite rev_involutive, last_last, removelast_last. cbn [hd tl]. rewrite Nat.eqb_sym. destruct (a =? 3)%nat; [|reflexivity]. reflexivity. }
  split; [intros ->; reflexivity|]. split.
  - intros NE [A B]. rewrite K by auto. rewrite A, B. reflexivity.
  - intros NE H. rewrite K by auto. destruct (Nat.eqb_spec (last s O) 3); [|reflexivity]. destruct (Nat.eqb_spec (hd O s) 3)%nat; [tauto|reflexivity].
Qed.
(** so the density on the grid is an error, except on the 3 x 3 one *)
Theorem C160_grid_refuted : forall n, (0 < n)%nat -> n <> 3%nat -> pdf_shape [n; n] = Raise ValueError.
Proof. intros n N D. apply C160_shapes; [discriminate|]. cbn [hd last]. tauto. Qed.

(** Cases. *)
Example C159_case : bingham_pdf (fun _ _ _ => Some 7) (V3 4 2 1) mid (0, PI / 2) = Some (7 * exp (-1)).
Proof.
  rewrite (proj1 (C159_value (fun _ _ _ => Some 7) (V3 4 2 1) mid (0, PI / 2) ltac:(cbn; lra) ltac:(cbn; lra) ltac:(cbn; lra)) 7 eq_refl) by lra. f_equal. unfold axial_density, weights, sph2cart.
  rewrite cos_PI2, sin_PI2. f_equal. f_equal. munf. rewrite Rinv_1. unfold Rdiv. ring.
Qed.
Example C159_case_flat : same_line (r2 mid) (r2 (mT mid)).
Proof. left. reflexivity. Qed.
Example C160_case : pdf_shape [3; 3]%nat = Ok [3; 3; 3; 3]%nat /\ pdf_shape [3; 5; 3]%nat = Ok [3; 3; 5; 3; 5; 3]%nat /\ pdf_shape [100; 100]%nat = Raise ValueError.
Proof. repeat split. Qed.

Print Assumptions C159_value.
Print Assumptions C159_axial.
Print Assumptions C159_peak.
Print Assumptions C159_pole_iff.
Print Assumptions C159_pole_refuted.
Print Assumptions C160_grid.
Print Assumptions C160_cover.
Print Assumptions C160_shapes.
Print Assumptions C160_grid_refuted.
