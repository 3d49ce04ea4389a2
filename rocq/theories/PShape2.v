(** Properties of the error hyperboloid of a fit, of the cone of asymptotes and of the
    total-least-squares coefficients (C138-C140). *)
From Coq Require Import Reals Lra Lia List Arith Bool Psatz.
From Verif Require Import RVec Trig LNum SpecPlane SpecConics SpecStereo MPca MConics LConics LPca LFit LFit2 LExamples MStereo MAxes LAxes LSlice PStereo MShape PConics PConics2 PShape.
Import ListNotations.
Open Scope R_scope.

(** * C138: the hyperboloid of a fit *)
(** position in the frame of the axes *)
Definition seen (rotated : bool) (A : mat3) (p : vec3) : vec3 := if rotated then mv A p else p.
Lemma as_hyperbola_value : forall rot f c, covariance_noise f = Some c -> has_zero c = false ->
  exists H, as_hyperbola rot f = Ok H /\ symmetric 4 H /\
  forall p, let q := seen rot (p_axes f) p in
    value 3 H (vec_of3 p) = vx q * vx q / vx c + vy q * vy q / vy c - vz q * vz q / vz c - 1.
Proof.
  intros rot f c CV HZ. unfold as_hyperbola. rewrite CV, HZ. eexists. split; [reflexivity|].
  apply has_zero_false in HZ. destruct HZ as (c0 & c1 & c2).
  set (d := V3 (1 / vx c) (1 / vy c) (1 / vz c * -1)).
  set (hyp := fun i j => if (i =? j)%nat then (if (i <? 3)%nat then vec_of3 d i else -1) else 0).
  assert (SY : symmetric 4 hyp).
  { intros i j I J. unfold trn, hyp. destruct (Nat.eqb_spec i j) as [->|NE]; [now rewrite Nat.eqb_refl|].
    destruct (Nat.eqb_spec j i); [congruence|reflexivity]. }
  assert (V : forall p, value 3 hyp (vec_of3 p) = vx p * vx p / vx c + vy p * vy p / vy c - vz p * vz p / vz c - 1).
  { intros [x y z]. unfold value, hyp, d, vec_of3. cbn [sumn Nat.eqb Nat.ltb Nat.leb vx vy vz]. field. auto. }
  split.
  - destruct rot; [now apply transform_symmetric|exact SY].
  - intros p. destruct rot; cbn [seen]; [rewrite transform_axes_value|]; apply V.
Qed.

(** Whatever was called before, the quadric is the hyperboloid of one sheet around the
    normal through the ellipse whose half-axes are the roots of the two larger variances:
    its points are those with x^2/c0 + y^2/c1 = 1 + z^2/c2 in the frame of the axes, up
    to the tolerance of the test.  The
    normal never meets it. *)
Theorem C138_hyperboloid : forall svd arr f cs rot c, lapack svd -> PCAOrientation svd arr None None = Ok f ->
  covariance_noise f = Some c -> 0 < vx c -> 0 < vy c -> 0 < vz c ->
  exists H, as_hyperbola rot (run_calls f cs) = Ok H /\
  (forall p, let q := seen rot (p_axes f) p in
     contains 3 H (vec_of3 p) true <-> Rabs (vx q * vx q / vx c + vy q * vy q / vy c - (1 + vz q * vz q / vz c)) <= / 100000000) /\
  (forall t, let p := vscale t (if rot then p_normal f else ez) in
     ~ contains 3 H (vec_of3 p) true /\ contains 3 H (vec_of3 p) false).
Proof.
  intros svd arr f cs rot c L F CV C0 C1 C2.
  destruct (fit_inv _ _ _ L F) as (_ & u & m & Hs & _ & _ & _ & _ & _ & _ & D).
  pose proof (svd_v _ _ _ _ Hs) as O. pose proof (good_derived f D) as G.
  destruct (run_same cs f G) as (S & GR & A). set (r := run_calls f cs) in *.
  assert (CR : covariance_noise r = Some c).
  { rewrite <- CV. unfold covariance_noise, rotated. rewrite (sf_arr _ _ S), (sf_s _ _ S), A.
    destruct (existsb _ _); auto. pose proof (flip_covariance f) as K. unfold flip_down_axes in K.
    destruct (Rlt_dec _ _); auto. }
  clearbody r. assert (HZ : has_zero c = false) by (apply has_zero_false; repeat split; lra).
  destruct (as_hyperbola_value rot r c CR HZ) as (H & E & _ & V).
  assert (AX : p_axes r = p_axes f \/ p_axes r = mneg (p_axes f)).
  { rewrite A. destruct (existsb _ _); auto. destruct (Rlt_dec _ _); auto. }
  assert (W : forall p, let q := seen rot (p_axes f) p in
    value 3 H (vec_of3 p) = vx q * vx q / vx c + vy q * vy q / vy c - vz q * vz q / vz c - 1).
  { intros p. cbv zeta. rewrite V. destruct rot; cbn [seen]; [|reflexivity].
    destruct AX as [-> | ->]; [reflexivity|]. unfold mv. cbn [vx vy vz].
    assert (ND : forall a, dot (vneg a) p = - dot a p) by (intros []; destruct p; vunf; ring).
    destruct (p_axes f) as [a b d]. cbn [mneg r0 r1 r2]. rewrite !ND. unfold Rdiv. ring. }
  exists H. split; [exact E|].
  assert (CT : forall p, contains 3 H (vec_of3 p) true <-> Rabs (value 3 H (vec_of3 p)) <= / 100000000).
  { intros p. unfold contains. rewrite <- solve_value. tauto. }
  assert (CF : forall p, contains 3 H (vec_of3 p) false <-> value 3 H (vec_of3 p) <= 0).
  { intros p. exact (proj2 (proj2 (C60_translate 3 H (vec_of3 p) (vec_of3 p)))). }
  split.
  - intros p. cbv zeta. rewrite CT, W.
    match goal with |- Rabs ?a <= _ <-> Rabs ?b <= _ => replace a with b by ring end. tauto.
  - intros t. cbv zeta. rewrite CT, CF, W.
    assert (Q : exists z, seen rot (p_axes f) (vscale t (if rot then p_normal f else ez)) = V3 0 0 z).
    { destruct rot; cbn [seen].
      - assert (N : p_normal f = r2 (p_axes f) \/ p_normal f = vneg (r2 (p_axes f))).
        { unfold p_normal. destruct D as [-> _]. unfold derived_normal. destruct (Rlt_dec _ _); auto. }
        destruct O as (O00 & O11 & O22 & O01 & O02 & O12).
        assert (DS : forall a q b, dot a (vscale q b) = q * dot a b) by (intros [] q []; vunf; ring).
        assert (DN : forall a b, dot a (vneg b) = - dot a b) by (intros [] []; vunf; ring).
        destruct N as [-> | ->]; unfold mv; rewrite !DS, ?DN, O02, O12, O22; eexists; apply vec3_eq; cbn [vx vy vz]; try ring; reflexivity.
      - exists t. apply vec3_eq; unfold ez; vunf; ring. }
    destruct Q as [z ->]. cbn [vx vy vz].
    assert (0 <= z * z / vz c) by (apply Rmult_le_pos; [nra|left; now apply Rinv_0_lt_compat]).
    unfold Rdiv in *. rewrite !Rmult_0_l. split; [|lra]. rewrite Rabs_left; lra.
Qed.
(** It is not the surface of the error hyperbolae z = sqrt(c2) cosh(arcsinh(x/sqrt(c0)))
    (test_errors.py:39-41): no point of that surface, z^2/c2 = 1 + x^2/c0 + y^2/c1, lies on it. *)
Theorem C138_error_surface_refuted : forall svd arr f cs rot c p, lapack svd -> PCAOrientation svd arr None None = Ok f ->
  covariance_noise f = Some c -> 0 < vx c -> 0 < vy c -> 0 < vz c ->
  let q := seen rot (p_axes f) p in
  vz q * vz q / vz c = 1 + vx q * vx q / vx c + vy q * vy q / vy c ->
  exists H, as_hyperbola rot (run_calls f cs) = Ok H /\ ~ contains 3 H (vec_of3 p) true.
Proof.
  intros svd arr f cs rot c p L F CV C0 C1 C2 q E.
  destruct (C138_hyperboloid svd arr f cs rot c L F CV C0 C1 C2) as (H & EH & P & _).
  exists H. split; auto. intros X. apply P in X. cbv zeta in X. fold q in X. rewrite Rabs_left in X; lra.
Qed.
Example C138_ex : exists f c H, PCAOrientation LSvd.svd_ref (axis_data 3 2 1) None None = Ok f /\
  covariance_noise f = Some c /\ 0 < vx c /\ 0 < vy c /\ 0 < vz c /\ as_hyperbola false f = Ok H /\
  contains 3 H (vec_of3 (V3 (sqrt (vx c)) 0 0)) true /\
  vz (V3 0 0 (sqrt (vz c))) * vz (V3 0 0 (sqrt (vz c))) / vz c = 1 + 0 * 0 / vx c + 0 * 0 / vy c.
Proof.
  destruct axis_variances as (f & c & F & CV & C0 & C1 & C2).
  destruct (C138_hyperboloid _ _ f [] false c lapack_ref F CV C0 C1 C2) as (H & E & P & _).
  exists f, c, H. do 6 (split; auto). split.
  - apply P. cbn [seen vx vy vz]. rewrite sqrt_sqrt by lra.
    match goal with |- Rabs ?x <= _ => replace x with 0 by (field; lra) end. rewrite Rabs_R0. lra.
  - cbn [vz]. rewrite sqrt_sqrt by lra. field. lra.
Qed.

(** * C139: the cone of asymptotes *)
(** direction of an asymptote of a central quadric: zero of its quadratic part *)
Definition asymptotic (H : matn) (v : vec3) : Prop :=
  sumn 3 (fun i => sumn 3 (fun j => H i j * vec_of3 v i * vec_of3 v j)) = 0.
(** diagonal quadric d0 x^2 + d1 y^2 - d2 z^2 = 1, as of [as_hyperbola] *)
Definition hyperboloid (d : vec3) (H : matn) : Prop :=
  meq 4 4 H (fun i j => if (i =? j)%nat then nth i [vx d; vy d; - vz d; -1] 0 else 0).

Lemma center_zero : forall inv H, numpy_inv inv -> invertible 3 H -> (forall i, (i < 3)%nat -> H i 3%nat = 0) ->
  exists c, MConics.center inv 3 H = Ok c /\ normn 3 c = 0.
Proof.
  intros inv H NI IV Z. unfold MConics.center. pose proof (NI 3%nat H) as K. destruct (inv 3%nat H) as [B|]; [|contradiction].
  eexists. split; [reflexivity|]. unfold normn, mulv. rewrite !sumn3. rewrite !Z by lia. 
  match goal with |- sqrt ?x = 0 => replace x with 0 by ring end. apply sqrt_0.
Qed.
Lemma hyperboloid_invertible : forall d H, 0 < vx d -> 0 < vy d -> 0 < vz d -> hyperboloid d H -> invertible 3 H.
Proof.
  intros d H D0 D1 D2 E.
  exists (fun i j => if (i =? j)%nat then / nth i [vx d; vy d; - vz d; -1] 0 else 0).
  split; intros i j I J; unfold mulm; rewrite sumn3, !E by lia;
    (destruct i as [|[|[|i]]]; [| | |lia]); (destruct j as [|[|[|j]]]; [| | |lia]); simpl; unfold idn; simpl; field; lra.
Qed.
Lemma asymptotes_value : forall inv d H n, numpy_inv inv -> 0 < vx d -> 0 < vy d -> 0 < vz d -> hyperboloid d H ->
  asymptotes inv H n = Ok (map (fun u => V3 (vx d * cos u) (vy d * sin u) (- vz d)) (linspace2pi n)).
Proof.
  intros inv d H n NI D0 D1 D2 E.
  destruct (center_zero inv H NI (hyperboloid_invertible d H D0 D1 D2 E)) as (c & Ec & Nc).
  { intros i I. rewrite E by lia. destruct (Nat.eqb_spec i 3); [lia|reflexivity]. }
  unfold asymptotes. rewrite Ec. cbn [rbind]. destruct (Req_EM_T _ 0); [|contradiction]. f_equal.
  apply map_ext. intros u. apply vec3_eq; cbn [vx vy vz to_vec3]; unfold vmul_mat; rewrite sumn3, !E by lia; simpl; ring.
Qed.

(** The vectors returned for a hyperboloid about the third axis span a closed cone about
    that axis whose half-widths are the diagonal entries themselves. *)
Theorem C139_cone : forall inv d H n, numpy_inv inv -> 0 < vx d -> 0 < vy d -> 0 < vz d -> hyperboloid d H -> (2 <= n)%nat ->
  exists vs, asymptotes inv H n = Ok vs /\ length vs = n /\ nth 0 vs vzero = nth (n - 1) vs vzero /\
  nth 0 vs vzero = V3 (vx d) 0 (- vz d) /\
  forall v, In v vs -> (vx v / vx d) * (vx v / vx d) + (vy v / vy d) * (vy v / vy d) = (vz v / vz d) * (vz v / vz d).
Proof.
  intros inv d H n NI D0 D1 D2 E Hn. eexists. split; [exact (asymptotes_value inv d H n NI D0 D1 D2 E)|].
  split; [now rewrite map_length, linspace_length|].
  set (g := fun u => V3 (vx d * cos u) (vy d * sin u) (- vz d)).
  assert (NT : forall i, (i < n)%nat -> nth i (map g (linspace2pi n)) vzero = g (angle_at n i)).
  { intros i I. apply nth_error_nth. rewrite nth_error_map, linspace_nth by auto. reflexivity. }
  rewrite !NT by lia. 
  assert (A0 : angle_at n 0 = 0). { unfold angle_at, Rdiv. cbn [INR]. rewrite Rmult_0_l. ring. }
  assert (A1 : angle_at n (n - 1) = 2 * PI). { unfold angle_at. field. apply not_0_INR. lia. }
  rewrite A0, A1. unfold g. rewrite cos_2PI, sin_2PI, cos_0, sin_0. split; [reflexivity|]. split; [apply vec3_eq; simpl; ring|].
  intros v I. apply in_map_iff in I. destruct I as (u & <- & _). cbn [vx vy vz].
  pose proof (sin2_cos2 u) as T. unfold Rsqr in T.
  replace (vx d * cos u / vx d) with (cos u) by (field; lra). replace (vy d * sin u / vy d) with (sin u) by (field; lra).
  replace (- vz d / vz d) with (-1) by (field; lra). lra.
Qed.

(** They are directions of asymptotes only when the three entries are equal. *)
Theorem C139_asymptotic_iff : forall inv d H n, numpy_inv inv -> 0 < vx d -> 0 < vy d -> 0 < vz d -> hyperboloid d H -> (4 <= n)%nat ->
  exists vs, asymptotes inv H n = Ok vs /\
  ((forall v, In v vs -> asymptotic H v) <-> vx d = vz d /\ vy d = vz d).
Proof.
  intros inv d H n NI D0 D1 D2 E Hn. eexists. split; [exact (asymptotes_value inv d H n NI D0 D1 D2 E)|].
  set (g := fun u => V3 (vx d * cos u) (vy d * sin u) (- vz d)).
  assert (AS : forall u, asymptotic H (g u) <-> (vx d)^3 * (cos u * cos u) + (vy d)^3 * (sin u * sin u) = (vz d)^3).
  { intros u. unfold asymptotic. rewrite !sumn3, !E by lia. unfold g, vec_of3. simpl. split; intros X; ring_simplify in X; ring_simplify; lra. }
  assert (IN : forall i, (i < n)%nat -> In (angle_at n i) (linspace2pi n)).
  { intros i I. apply nth_error_In with i. now apply linspace_nth. }
  assert (CI : forall x y, 0 < x -> 0 < y -> x ^ 3 = y ^ 3 -> x = y).
  { intros x y X Y K. destruct (Rtotal_order x y) as [l|[l|l]]; auto; exfalso.
    - assert (0 < (y - x) * (y * y + x * y + x * x)) by (apply Rmult_lt_0_compat; nra). simpl in K. nra.
    - assert (0 < (x - y) * (y * y + x * y + x * x)) by (apply Rmult_lt_0_compat; nra). simpl in K. nra. }
  split.
  - intros A. assert (A' : forall i, (i < n)%nat -> (vx d)^3 * (cos (angle_at n i) * cos (angle_at n i)) + (vy d)^3 * (sin (angle_at n i) * sin (angle_at n i)) = (vz d)^3).
    { intros i I. apply AS, A, in_map, IN; auto. }
    pose proof (A' 0%nat ltac:(lia)) as X0. pose proof (A' 1%nat ltac:(lia)) as X1.
    assert (A0 : angle_at n 0 = 0) by (unfold angle_at, Rdiv; cbn [INR]; rewrite Rmult_0_l; ring).
    rewrite A0, cos_0, sin_0 in X0. assert (EX : vx d = vz d) by (apply CI; auto; lra).
    split; auto. rewrite EX in X1. set (t := angle_at n 1) in *.
    assert (T : 0 < t < PI).
    { unfold t, angle_at. assert (N3 : 3 <= INR (n - 1)) by (replace 3 with (INR 3) by (simpl; lra); apply le_INR; lia).
      pose proof PI_RGT_0 as PP. cbn [INR]. assert (0 < / INR (n - 1)) by (apply Rinv_0_lt_compat; lra).
      assert (/ INR (n - 1) <= / 3) by (apply Rinv_le_contravar; lra). unfold Rdiv. split; nra. }
    assert (SP : 0 < sin t) by (apply sin_gt_0; lra).
    pose proof (sin2_cos2 t) as SC. unfold Rsqr in SC.
    apply CI; auto. assert (K : ((vy d)^3 - (vz d)^3) * (sin t * sin t) = 0).
    { replace (cos t * cos t) with (1 - sin t * sin t) in X1 by lra. lra. }
    apply Rmult_integral in K. destruct K as [K|K]; [lra|]. nra.
  - intros [X Y] v I. apply in_map_iff in I. destruct I as (u & <- & _). apply AS. rewrite X, Y.
    pose proof (sin2_cos2 u) as SC. unfold Rsqr in SC.
    replace (cos u * cos u) with (1 - sin u * sin u) by lra. ring.
Qed.
(** For the hyperboloid of test_errors.py:11-18 no returned vector is an asymptote. *)
Theorem C139_test_refuted : exists H, hyperboloid (V3 (/ (500 * 500)) (/ (300 * 300)) (/ (2 * 2))) H /\
  forall inv n, numpy_inv inv -> exists vs, asymptotes inv H n = Ok vs /\ length vs = n /\ forall v, In v vs -> ~ asymptotic H v.
Proof.
  set (d := V3 (/ (500 * 500)) (/ (300 * 300)) (/ (2 * 2))).
  set (H := fun i j : nat => if (i =? j)%nat then nth i [vx d; vy d; - vz d; -1] 0 else 0).
  assert (E : hyperboloid d H) by (intros i j _ _; reflexivity).
  exists H. split; auto. intros inv n NI.
  exists (map (fun u => V3 (vx d * cos u) (vy d * sin u) (- vz d)) (linspace2pi n)).
  split; [apply asymptotes_value; auto; unfold d; cbn [vx vy vz]; lra|].
  split; [now rewrite map_length, linspace_length|].
  intros v I. apply in_map_iff in I. destruct I as (u & <- & _). unfold asymptotic. rewrite !sumn3, !E by lia. unfold d, vec_of3. simpl.
  pose proof (sin2_cos2 u) as SC. unfold Rsqr in SC. set (c := cos u) in *. set (s := sin u) in *. intros X.
  assert (0 <= c * c) by nra. assert (0 <= s * s) by nra. nra.
Qed.
(** A quadric centred elsewhere is rejected. *)
Theorem C139_centre : forall inv H n, numpy_inv inv -> invertible 3 H ->
  (exists i, (i < 3)%nat /\ H i 3%nat <> 0) -> asymptotes inv H n = Raise AssertionError.
Proof.
  intros inv H n NI IV (i & I & Z). unfold asymptotes, MConics.center. pose proof (NI 3%nat H) as K.
  destruct (inv 3%nat H) as [B|]; [|contradiction]. cbn [rbind].
  destruct (Req_EM_T _ 0) as [e|e]; [|reflexivity]. exfalso. apply Z.
  set (w := mulv 3 B (fun i => - H i 3%nat)) in *.
  assert (W : forall k, (k < 3)%nat -> w k = 0).
  { unfold normn in e. rewrite sumn3 in e. assert (Q : w 0%nat * w 0%nat + w 1%nat * w 1%nat + w 2%nat * w 2%nat = 0).
    { apply sqrt_eq_0 in e; auto. nra. }
    intros k Hk. destruct k as [|[|[|k]]]; [| | |lia]; nra. }
  destruct K as [HB _].
  assert (M : sumn 3 (fun j => H i j * w j) = - H i 3%nat).
  { unfold w, mulv. pose proof (fun j (J : (j < 3)%nat) => HB i j I J) as R. unfold mulm in R.
    pose proof (R 0%nat ltac:(lia)) as R0. pose proof (R 1%nat ltac:(lia)) as R1. pose proof (R 2%nat ltac:(lia)) as R2.
    rewrite sumn3 in R0, R1, R2. rewrite !sumn3.
    transitivity (- (idn i 0%nat * H 0%nat 3%nat + idn i 1%nat * H 1%nat 3%nat + idn i 2%nat * H 2%nat 3%nat)).
    - rewrite <- R0, <- R1, <- R2. ring.
    - destruct i as [|[|[|i]]]; [| | |lia]; unfold idn; simpl; ring. }
  rewrite sumn3 in M. rewrite !W in M by lia. lra.
Qed.
Example C139_ex : exists H, hyperboloid (V3 (/ (500 * 500)) (/ (300 * 300)) (/ (2 * 2))) H /\
  exists H', invertible 3 H' /\ H' 0%nat 3%nat <> 0 /\ symmetric 4 H'.
Proof.
  destruct C139_test_refuted as (H & E & _). exists H. split; auto.
  exists (fun i j => if (i =? j)%nat then 1 else if ((i =? 3) && (j =? 0) || (i =? 0) && (j =? 3))%nat then 1 else 0).
  split; [|split].
  - exists idn. split; intros i j I J; unfold mulm; rewrite sumn3; (destruct i as [|[|[|i]]]; [| | |lia]); (destruct j as [|[|[|j]]]; [| | |lia]); unfold idn; simpl; ring.
  - simpl. lra.
  - intros i j I J. unfold trn. rewrite (Nat.eqb_sym j i). destruct (i =? j)%nat; auto.
    rewrite andb_comm, orb_comm. f_equal. rewrite (andb_comm (j =? 3)%nat). now rewrite orb_comm.
Qed.

(** * C140: the total-least-squares coefficients *)
(** sums of products of the centred data *)
Definition sxx (f : pca) := sumf (fun p => vx p * vx p) (p_arr f).
Definition sxy (f : pca) := sumf (fun p => vx p * vy p) (p_arr f).
Definition syy (f : pca) := sumf (fun p => vy p * vy p) (p_arr f).
Definition sxz (f : pca) := sumf (fun p => vx p * vz p) (p_arr f).
Definition syz (f : pca) := sumf (fun p => vy p * vz p) (p_arr f).
(** (X'X - sigma^2 I) b = X'y *)
Definition tls_equations (f : pca) (b : R * R) : Prop :=
  let v := vz (p_s f) * vz (p_s f) in
  (sxx f - v) * fst b + sxy f * snd b = sxz f /\ sxy f * fst b + (syy f - v) * snd b = syz f.
(** sum of squared distances from the centred data to z = b0 x + b1 y *)
Definition plane_misfit (f : pca) (b : R * R) : R :=
  sumf (fun p => (vz p - fst b * vx p - snd b * vy p) * (vz p - fst b * vx p - snd b * vy p)) (p_arr f)
  / (1 + fst b * fst b + snd b * snd b).

Lemma Q_xyz : forall l d e, Q l d e = vx d * vx e * sumf (fun p => vx p * vx p) l + vy d * vy e * sumf (fun p => vy p * vy p) l
  + vz d * vz e * sumf (fun p => vz p * vz p) l + (vx d * vy e + vy d * vx e) * sumf (fun p => vx p * vy p) l
  + (vx d * vz e + vz d * vx e) * sumf (fun p => vx p * vz p) l + (vy d * vz e + vz d * vy e) * sumf (fun p => vy p * vz p) l.
Proof.
  unfold Q. intros l [dx dy dz] [ex ey ez]. induction l as [|[x y z] l IH]; cbn [sumf]; [simpl; ring|]. rewrite IH. unfold dot. cbn [vx vy vz]. ring.
Qed.
Lemma pos2 : forall a b x y, 0 < a -> 0 < b -> a * (x * x) + b * (y * y) = 0 -> x = 0 /\ y = 0.
Proof.
  intros a b x y A B E. assert (X : 0 <= x * x) by nra. assert (Y : 0 <= y * y) by nra.
  assert (0 <= a * (x * x)) by nra. assert (0 <= b * (y * y)) by nra.
  assert (x * x = 0) by nra. assert (y * y = 0) by nra. split; nra.
Qed.
Theorem C140_tls : forall svd arr f cs, lapack svd -> PCAOrientation svd arr None None = Ok f ->
  vz (p_s f) < vy (p_s f) -> vz (p_normal f) <> 0 ->
  exists b, tls_beta (run_calls f cs) = Some b /\ tls_equations f b /\
  (forall b', tls_equations f b' -> b' = b) /\
  (forall b', plane_misfit f b <= plane_misfit f b') /\ plane_misfit f b = vz (p_s f) * vz (p_s f).
Proof.
  intros svd arr f cs L F LT NV.
  destruct (fit_inv _ _ _ L F) as (_ & u & m & Hs & _ & _ & Ea & _ & _ & _ & D).
  pose proof (svd_v _ _ _ _ Hs) as O. pose proof (good_derived f D) as G.
  destruct (run_same cs f G) as (S & GR & A). set (r := run_calls f cs) in *. clearbody r.
  set (n := r2 (p_axes f)) in *.
  assert (NZ : vz n <> 0).
  { intros Z. apply NV. unfold p_normal. destruct D as [-> _]. unfold derived_normal. fold n. destruct (Rlt_dec _ _); [lra|exact Z]. }
  set (b := (- vx n / vz n, - vy n / vz n)).
  exists b. 
  assert (EB : tls_beta r = Some b).
  { unfold tls_beta. assert (AX : r2 (p_axes r) = n \/ r2 (p_axes r) = vneg n).
    { rewrite A. destruct (existsb _ _); auto. destruct (Rlt_dec _ _); auto. }
    unfold b. destruct AX as [-> | ->].
    - destruct (Req_EM_T (vz n) 0); [contradiction|reflexivity].
    - cbn [vneg vx vy vz]. destruct (Req_EM_T (- vz n) 0) as [e|e]; [exfalso; apply NZ; lra|].
      f_equal. f_equal; field; auto. }
  split; [exact EB|].
  pose proof (fun d e => Q_svd _ _ _ _ d e Hs) as QS.
  destruct O as (O00 & O11 & O22 & O01 & O02 & O12). fold n in O22, O02, O12, QS.
  assert (EQN : forall e, Q (centered arr) n e = vz (p_s f) * vz (p_s f) * dot n e).
  { intros e. rewrite QS, O02, O12, O22. ring. }
  assert (TE : tls_equations f b).
  { pose proof (EQN ex) as X. pose proof (EQN ey) as Y. rewrite Q_xyz in X, Y. unfold ex, ey, dot in X, Y. cbn [vx vy vz] in X, Y.
    unfold tls_equations, sxx, sxy, syy, sxz, syz. rewrite Ea. unfold b. cbn [fst snd].
    split; apply Rmult_eq_reg_l with (vz n); auto; field_simplify; auto; lra. }
  split; [exact TE|].
  pose proof (svd_s01 _ _ _ _ Hs) as S01. pose proof (svd_s2 _ _ _ _ Hs) as S2.
  set (v := vz (p_s f) * vz (p_s f)) in *.
  assert (K : forall d, Q (centered arr) d d - v * nrm2 d = (vx (p_s f) * vx (p_s f) - v) * (dot (r0 (p_axes f)) d * dot (r0 (p_axes f)) d)
      + (vy (p_s f) * vy (p_s f) - v) * (dot (r1 (p_axes f)) d * dot (r1 (p_axes f)) d)).
  { intros d. rewrite QS. pose proof (parseval (p_axes f) d (svd_v _ _ _ _ Hs)) as P. fold n in P. unfold v. rewrite <- P. ring. }
  assert (P1 : 0 < vy (p_s f) * vy (p_s f) - v) by (unfold v; nra).
  assert (P0 : 0 < vx (p_s f) * vx (p_s f) - v) by (unfold v; nra).
  assert (MF : forall c, plane_misfit f c = Q (centered arr) (V3 (- fst c) (- snd c) 1) (V3 (- fst c) (- snd c) 1) / (1 + fst c * fst c + snd c * snd c)).
  { intros c. unfold plane_misfit. rewrite Ea. f_equal. unfold Q. apply sumf_ext. intros p _. unfold dot. cbn [vx vy vz]. ring. }
  assert (MB : Q (centered arr) (V3 (- fst b) (- snd b) 1) (V3 (- fst b) (- snd b) 1) / (1 + fst b * fst b + snd b * snd b) = v).
  { assert (EV : V3 (- fst b) (- snd b) 1 = vscale (/ vz n) n) by (unfold b; apply vec3_eq; cbn [fst snd vx vy vz vscale]; field; auto).
    pose proof (K (V3 (- fst b) (- snd b) 1)) as KB. rewrite EV in KB.
    assert (DS : forall a q c, dot a (vscale q c) = q * dot a c) by (intros [] q []; vunf; ring).
    rewrite !DS, O02, O12, <- EV in KB.
    assert (N2 : nrm2 (V3 (- fst b) (- snd b) 1) = 1 + fst b * fst b + snd b * snd b) by (unfold nrm2; vunf; ring).
    rewrite N2 in KB. assert (0 < 1 + fst b * fst b + snd b * snd b) by nra.
    replace (Q _ _ _) with (v * (1 + fst b * fst b + snd b * snd b)) by lra. field. lra. }
  split; [|split].
  - intros [b0 b1] [T0 T1]. destruct TE as [E0 E1]. 
    unfold sxx, sxy, syy, sxz, syz in *. rewrite Ea in *. fold v in T0, T1, E0, E1.
    set (d := V3 (b0 - fst b) (b1 - snd b) 0).
    assert (Z : Q (centered arr) d d - v * nrm2 d = 0).
    { rewrite Q_xyz. unfold d, nrm2. unfold dot. cbn [vx vy vz] in *. cbn [fst snd] in T0, T1.
      match goal with |- ?g = 0 => replace g with ((b0 - fst b) * ((sumf (fun p => vx p * vx p) (centered arr) - v) * (b0 - fst b) + sumf (fun p => vx p * vy p) (centered arr) * (b1 - snd b))
        + (b1 - snd b) * (sumf (fun p => vx p * vy p) (centered arr) * (b0 - fst b) + (sumf (fun p => vy p * vy p) (centered arr) - v) * (b1 - snd b))) by ring end.
      assert (Y0 : (sumf (fun p => vx p * vx p) (centered arr) - v) * (b0 - fst b) + sumf (fun p => vx p * vy p) (centered arr) * (b1 - snd b) = 0) by lra.
      assert (Y1 : sumf (fun p => vx p * vy p) (centered arr) * (b0 - fst b) + (sumf (fun p => vy p * vy p) (centered arr) - v) * (b1 - snd b) = 0) by lra.
      rewrite Y0, Y1. ring. }
    rewrite K in Z.
    apply pos2 in Z; auto. destruct Z as [Z0 Z1].
    (* d is a multiple of n *)
    assert (DN : d = vscale (dot n d) n).
    { pose proof (orthonormal_expand (p_axes f) d (svd_v _ _ _ _ Hs)) as X. rewrite <- X at 1. clear X.
      unfold vm, mv. rewrite Z0, Z1. fold n. clear. destruct (p_axes f), n, d. apply vec3_eq; vunf; ring. }
    assert (DZ : dot n d * vz n = 0) by (apply (f_equal vz) in DN; unfold d in DN at 1; cbn [vz vscale] in DN; lra).
    apply Rmult_integral in DZ. destruct DZ as [DZ|DZ]; [|contradiction]. rewrite DZ in DN.
    assert (X := f_equal vx DN). assert (Y := f_equal vy DN). unfold d in X, Y. cbn [vx vy vscale] in X, Y.
    rewrite (surjective_pairing b). f_equal; lra.
  - intros b'. rewrite !MF. pose proof (K (V3 (- fst b') (- snd b') 1)) as K1. pose proof (K (V3 (- fst b) (- snd b) 1)) as K2.
    assert (B0 : forall c : R * R, nrm2 (V3 (- fst c) (- snd c) 1) = 1 + fst c * fst c + snd c * snd c) by (intros c; unfold nrm2; vunf; ring).
    assert (PB : forall c : R * R, 0 < 1 + fst c * fst c + snd c * snd c) by (intros c; nra).
    rewrite B0 in K1, K2. rewrite MB. apply Rmult_le_reg_r with (1 + fst b' * fst b' + snd b' * snd b'); [apply PB|].
    unfold Rdiv. rewrite Rmult_assoc, Rinv_l by (pose proof (PB b'); lra).
    assert (0 <= dot (r0 (p_axes f)) (V3 (- fst b') (- snd b') 1) * dot (r0 (p_axes f)) (V3 (- fst b') (- snd b') 1)) by nra.
    assert (0 <= dot (r1 (p_axes f)) (V3 (- fst b') (- snd b') 1) * dot (r1 (p_axes f)) (V3 (- fst b') (- snd b') 1)) by nra.
    nra.
  - rewrite MF. exact MB.
Qed.
(** With a vertical plane the equations have no unique solution. *)
Theorem C140_vertical : forall svd arr f cs, lapack svd -> PCAOrientation svd arr None None = Ok f ->
  vz (p_normal f) = 0 -> tls_beta (run_calls f cs) = None /\
  forall b, tls_equations f b -> exists b', b' <> b /\ tls_equations f b'.
Proof.
  intros svd arr f cs L F NV.
  destruct (fit_inv _ _ _ L F) as (_ & u & m & Hs & _ & _ & Ea & _ & _ & _ & D).
  pose proof (svd_v _ _ _ _ Hs) as O. pose proof (good_derived f D) as G.
  destruct (run_same cs f G) as (S & GR & A). set (r := run_calls f cs) in *. clearbody r.
  set (n := r2 (p_axes f)) in *.
  assert (NZ : vz n = 0).
  { revert NV. unfold p_normal. destruct D as [-> _]. unfold derived_normal. fold n. destruct (Rlt_dec _ _); cbn [vneg vz]; lra. }
  destruct O as (O00 & O11 & O22 & O01 & O02 & O12). fold n in O22, O02, O12.
  split.
  - unfold tls_beta. assert (AX : vz (r2 (p_axes r)) = 0).
    { rewrite A. destruct (existsb _ _); [destruct (Rlt_dec _ _)|]; cbn [mneg r2 vneg vz]; fold n; lra. }
    rewrite AX. destruct (Req_EM_T 0 0); [reflexivity|lra].
  - intros [b0 b1] [T0 T1]. exists (b0 + vx n, b1 + vy n). split.
    + intros X. injection X as X Y. assert (vx n = 0) by lra. assert (vy n = 0) by lra.
      revert O22. unfold dot. replace (vx n) with 0 by lra. replace (vy n) with 0 by lra. rewrite NZ. lra.
    + assert (EQN : forall e, Q (centered arr) n e = vz (p_s f) * vz (p_s f) * dot n e).
      { intros e. rewrite (Q_svd _ _ _ _ _ _ Hs). fold n. rewrite O02, O12, O22. ring. }
      pose proof (EQN ex) as X. pose proof (EQN ey) as Y. rewrite Q_xyz in X, Y. unfold ex, ey, dot in X, Y. cbn [vx vy vz] in X, Y. rewrite NZ in X, Y.
      unfold tls_equations, sxx, sxy, syy, sxz, syz in *. rewrite Ea in *. cbn [fst snd] in *. lra.
Qed.
Example C140_ex : exists f, PCAOrientation LSvd.svd_ref tilted_data None None = Ok f /\
  vz (p_s f) < vy (p_s f) /\ vz (p_normal f) <> 0.
Proof.
  destruct tilted_fit as (f & F & N & LT & _). exists f. repeat split; auto. rewrite N. simpl. lra.
Qed.

Print Assumptions C138_hyperboloid.
Print Assumptions C138_error_surface_refuted.
Print Assumptions C139_cone.
Print Assumptions C139_asymptotic_iff.
Print Assumptions C139_test_refuted.
Print Assumptions C139_centre.
Print Assumptions C140_tls.
Print Assumptions C140_vertical.
