(** C211: the three point problem and the direction tests. *)
From Coq Require Import Reals Lra Lia List Psatz Arith.
From Verif Require Import RVec Trig SpecPlane SpecEquiv MPca LSvd LPca LFit LAngles LFit2 LExamples PPca PEquiv MTests.
Import ListNotations.
Open Scope R_scope.

Definition triangle_normal (a b c : vec3) : vec3 := cross (vsub b a) (vsub c a).

Lemma cross_cross_zero : forall n u v, dot n u = 0 -> dot n v = 0 -> cross n (cross u v) = vzero.
Proof.
  intros n u v H1 H2. assert (E : cross n (cross u v) = vsub (vscale (dot n v) u) (vscale (dot n u) v)) by (vunf; apply vec3_eq; simpl; ring).
  rewrite E, H1, H2. apply vec3_eq; simpl; ring.
Qed.
Lemma vzero_iff : forall n, n <> vzero -> 0 < nrm2 n.
Proof.
  intros n H. destruct (nrm2_nonneg n) as [L|E]; auto. exfalso. apply H. unfold nrm2, dot in E.
  apply vec3_eq; simpl; nra.
Qed.
(** parallel unit vectors pointing up *)
Lemma parallel_up : forall p q n, unit3 p -> unit3 q -> n <> vzero -> cross p n = vzero -> cross q n = vzero -> p = q \/ p = vneg q.
Proof.
  intros p q n P Q N C1 C2. pose proof (vzero_iff n N) as N0.
  assert (R : forall p, unit3 p -> cross p n = vzero -> vscale (nrm2 n) p = vscale (dot p n) n /\ dot p n * dot p n = nrm2 n).
  { intros r U C. assert (E : vscale (nrm2 n) r = vadd (vscale (dot r n) n) (cross n (cross r n))) by (unfold nrm2; vunf; apply vec3_eq; simpl; ring).
    rewrite C in E. assert (E' : vscale (nrm2 n) r = vscale (dot r n) n) by (rewrite E; apply vec3_eq; vunf; ring). split; auto.
    assert (L : nrm2 r * nrm2 n = dot r n * dot r n + nrm2 (cross r n)) by (unfold nrm2; vunf; ring).
    rewrite C in L. unfold unit3 in U. rewrite U in L. unfold nrm2 at 2, vzero in L. unfold dot at 3 in L; cbn [vx vy vz] in L. lra. }
  destruct (R p P C1) as (E1 & S1). destruct (R q Q C2) as (E2 & S2).
  assert (K : (dot p n - dot q n) * (dot p n + dot q n) = 0) by lra. apply Rmult_integral in K.
  assert (X : forall u v, vscale (nrm2 n) u = vscale (nrm2 n) v -> u = v).
  { intros u v H. injection H as H0 H1 H2. apply vec3_eq; eapply Rmult_eq_reg_l; eauto; lra. }
  destruct K as [K|K].
  - left. apply X. rewrite E1, E2. f_equal. lra.
  - right. apply X. rewrite E1. replace (dot p n) with (- dot q n) by lra. 
    replace (vscale (nrm2 n) (vneg q)) with (vneg (vscale (nrm2 n) q)) by (apply vec3_eq; simpl; ring). rewrite E2. apply vec3_eq; simpl; ring.
Qed.

Lemma unit_of : forall n, n <> vzero -> unit3 (vscale (/ sqrt (nrm2 n)) n).
Proof.
  intros n H. pose proof (vzero_iff n H) as N. pose proof (sqrt_lt_R0 _ N) as S. unfold unit3.
  assert (E : nrm2 (vscale (/ sqrt (nrm2 n)) n) = / sqrt (nrm2 n) * / sqrt (nrm2 n) * nrm2 n) by (unfold nrm2 at 1 4; vunf; ring).
  rewrite E. rewrite <- (sqrt_sqrt (nrm2 n)) at 3 by lra. field. lra.
Qed.

(** Points in a plane, three of them not in a line: the fit is that plane, whatever else
    lies in it, and its strike and dip are those of the plane. *)
Theorem C211_three_points : forall svd arr f a b c, lapack svd -> PCAOrientation svd arr None None = Ok f ->
  In a arr -> In b arr -> In c arr -> let n := triangle_normal a b c in n <> vzero ->
  (forall p, In p arr -> dot n p = dot n a) ->
  cross (p_normal f) n = vzero /\ (forall p, In p arr -> dot (p_normal f) p = dot (p_normal f) a) /\
  exists s d, strike_dip f = Some (s, d) /\ 0 <= s < 360 /\ 0 <= d <= 90 /\ cross (plane_normal s d) n = vzero /\
  forall s' d', 0 <= d' <= 90 -> cross (plane_normal s' d') n = vzero -> d = d' /\ (0 < d' < 90 -> cong360 s s').
Proof.
  intros svd arr f a b c HL HF A B C n N PL.
  destruct (C01_total_least_squares svd arr f HL HF) as (m & _ & _ & _ & OPT).
  set (h := / sqrt (nrm2 n)). pose proof (unit_of n N) as U. fold h in U.
  specialize (OPT (vscale h n) (h * dot n a) U).
  assert (Z0 : sum_sq_dist (vscale h n) (h * dot n a) arr = 0).
  { apply ssd_zero. intros p Hp. rewrite dot_scale_l, (PL p Hp). reflexivity. }
  rewrite Z0 in OPT. assert (Z1 : sum_sq_dist (p_normal f) (dot (p_normal f) m) arr = 0).
  { apply Rle_antisym; auto. apply sumf_nonneg. intros. apply Rle_0_sqr. }
  pose proof (proj1 (ssd_zero _ _ _) Z1) as ON.
  assert (D : forall p q, In p arr -> In q arr -> dot (p_normal f) (vsub p q) = 0).
  { intros p q HP HQ. assert (E : dot (p_normal f) (vsub p q) = dot (p_normal f) p - dot (p_normal f) q) by (vunf; ring).
    rewrite E, (ON p HP), (ON q HQ). ring. }
  assert (X : cross (p_normal f) n = vzero) by (apply cross_cross_zero; apply D; auto).
  split; [exact X|]. split. { intros p HP. rewrite (ON p HP), (ON a A). reflexivity. }
  destruct (C11_strike_dip_range svd arr ones f HL HF) as (s & d & ES & Dr & Sr). exists s, d. do 3 (split; [auto|]).
  pose proof (C12_strike_dip_plane svd arr ones f HL HF s d ES) as PN.
  split; [now rewrite PN|]. intros s' d' Dr' X'.
  destruct (C09_normal svd arr ones f HL HF) as (Un & Up & _).
  destruct (C12_spec_sanity s' d') as (U' & _). 
  assert (CP : forall x, 0 <= x <= 90 -> 0 <= cos (radians x)).
  { intros x Hx. pose proof PI_RGT_0. apply cos_ge_0; unfold radians; nra. }
  assert (VZ : vz (plane_normal s' d') = cos (radians d')) by now rewrite plane_normal_components.
  destruct (parallel_up _ _ n Un U' N X X') as [E|E].
  - rewrite <- PN in E. destruct (plane_normal_inj s d s' d' Dr Dr' E) as (-> & G). split; auto. intros; apply G; lra.
  - assert (V0 : vz (p_normal f) = - cos (radians d')) by (rewrite E; cbn [vz vneg]; now rewrite VZ).
    assert (W : cos (radians d') = 0) by (pose proof (CP d' Dr'); lra).
    assert (D90 : d' = 90).
    { apply dip_of_cos; try lra. rewrite W, radians_90. symmetry. apply cos_PI2. }
    split; [|intros; lra]. apply dip_of_cos; try lra. rewrite W.
    assert (V1 : vz (plane_normal s d) = cos (radians d)) by now rewrite plane_normal_components. rewrite <- V1, PN, V0, W. ring.
Qed.

Lemma cong_range : forall s s', 0 <= s < 360 -> 0 <= s' < 360 -> cong360 s s' -> s = s'.
Proof.
  intros s s' H H' (k & E). assert (K : (-1 < k < 1)%Z) by (split; apply lt_IZR; simpl; lra). replace k with 0%Z in E by lia. lra.
Qed.

(** A direction test compares both numbers: it passes exactly if they are the strike and
    the dip of the fit, and fails with an AssertionError otherwise. *)
Theorem C211_compares : forall svd pts f sol, PCAOrientation svd pts None None = Ok f ->
  (check_orientation svd (Array pts) sol = Ok tt <-> strike_dip f = Some sol) /\
  (check_orientation svd (Array pts) sol = Raise AssertionError <-> strike_dip f <> Some sol).
Proof.
  intros svd pts f (s, d) F. unfold check_orientation, Orientation. rewrite F. cbn [rbind fst snd].
  destruct (strike_dip f) as [(s0, d0)|]; [|split; (split; [discriminate || congruence|]); congruence].
  destruct (Req_EM_T s0 s) as [->|N]; [destruct (Req_EM_T d0 d) as [->|N]|]; split; split; congruence.
Qed.

(** With the right answer for the plane, a test passes exactly if the strike is given as
    a number from 0 up to 360. *)
Theorem C211_passes : forall svd a b c rest s d, lapack svd -> let n := triangle_normal a b c in n <> vzero ->
  (forall p, In p rest -> dot n p = dot n a) -> 0 < d < 90 -> cross (plane_normal s d) n = vzero ->
  let pts := a :: b :: c :: rest in
  check_orientation svd (PyList pts) (s, d) = Raise AttributeError /\
  (0 <= s < 360 -> check_orientation svd (Array pts) (s, d) = Ok tt) /\
  (~ 0 <= s < 360 -> check_orientation svd (Array pts) (s, d) = Raise AssertionError).
Proof.
  intros svd a b c rest s d HL n N R D X pts. split; [reflexivity|].
  destruct (fit_exists svd pts HL) as (f & F). { unfold pts. simpl. lia. }
  destruct (C211_three_points svd pts f a b c HL F) as (_ & _ & s0 & d0 & E & S0 & D0 & _ & U).
  { left; auto. } { right; left; auto. } { right; right; left; auto. } { exact N. }
  { fold n. intros p [<-|[<-|[<-|H]]]; [reflexivity| | |now apply R]; unfold n, triangle_normal; vunf; ring. }
  fold n in U. destruct (U s d ltac:(lra) X) as (-> & C). specialize (C D).
  unfold check_orientation, Orientation. rewrite F. cbn [rbind fst snd]. rewrite E. split; intros H.
  - rewrite (cong_range s0 s S0 H C). destruct (Req_EM_T s s); [|congruence]. destruct (Req_EM_T d d); congruence.
  - destruct (Req_EM_T s0 s); [subst; contradiction|reflexivity].
Qed.

Lemma sqrt2_pos : 0 < sqrt 2.
Proof. apply sqrt_lt_R0. lra. Qed.
Lemma r45 : radians 45 = PI / 4.
Proof. unfold radians. field. Qed.
Lemma r180 : radians 180 = PI.
Proof. unfold radians. field. Qed.
Lemma rneg : forall x, radians (- x) = - radians x.
Proof. intros. unfold radians. field. Qed.
Lemma dip6 : 0 < degrees (atan (sqrt 2)) < 90.
Proof.
  pose proof PI_RGT_0. pose proof (atan_bound (sqrt 2)). assert (0 < atan (sqrt 2)) by (rewrite <- atan_0; apply atan_increasing, sqrt2_pos).
  unfold degrees. split. { apply Rmult_lt_0_compat; [lra|now apply Rinv_0_lt_compat]. }
  apply Rmult_lt_reg_r with PI; auto. unfold Rdiv. rewrite Rmult_assoc, Rinv_l by lra. lra.
Qed.

(** As written every direction test raises, since lists have no mean; given arrays, the
    first and the last still fail, for every decomposition, and the others pass. *)
Theorem C211_cases : forall svd, lapack svd ->
  test_directions svd = repeat (Raise AttributeError) 6 /\
  map (fun c => check_orientation svd (Array (fst c)) (snd c)) simple_cases =
    [Raise AssertionError; Ok tt; Ok tt; Ok tt; Ok tt; Raise AssertionError].
Proof.
  intros svd HL. split; [reflexivity|]. unfold simple_cases. cbn [map fst snd].
  assert (S1 : sin (PI / 4) = cos (PI / 4)) by now rewrite sin_PI4, cos_PI4.
  assert (NZ : forall x y z, ~ (x = 0 /\ y = 0 /\ z = 0) -> V3 x y z <> vzero) by (intros x y z H E; injection E as -> -> ->; apply H; auto).
  assert (R0 : radians 0 = 0) by (unfold radians; field).
  assert (T : forall a b c s d, triangle_normal a b c <> vzero -> 0 < d < 90 -> cross (plane_normal s d) (triangle_normal a b c) = vzero ->
     (0 <= s < 360 -> check_orientation svd (Array [a; b; c]) (s, d) = Ok tt) /\
     (~ 0 <= s < 360 -> check_orientation svd (Array [a; b; c]) (s, d) = Raise AssertionError)).
  { intros a b c s d H1 H2 H3. apply (C211_passes svd a b c [] s d HL H1 ltac:(intros p []) H2 H3). }
  assert (NN : forall a b c, ~ (vx (triangle_normal a b c) = 0 /\ vy (triangle_normal a b c) = 0 /\ vz (triangle_normal a b c) = 0) -> triangle_normal a b c <> vzero)
    by (intros a b c H E; apply H; rewrite E; auto).
  repeat apply f_equal2; try reflexivity.
  - apply T; [|lra| |lra]. { apply NN. unfold triangle_normal. vunf. lra. }
    replace (-90) with (Ropp 90) by lra. rewrite plane_normal_components, rneg, radians_90, sin_neg, cos_neg, cos_PI2, sin_PI2, r45, S1. unfold triangle_normal. vunf. apply vec3_eq; simpl; ring.
  - apply T; [|lra| |lra]. { apply NN. unfold triangle_normal. vunf. lra. }
    rewrite plane_normal_components, R0, sin_0, cos_0, r45, S1. unfold triangle_normal. vunf. apply vec3_eq; simpl; ring.
  - apply T; [|lra| |lra]. { apply NN. unfold triangle_normal. vunf. lra. }
    rewrite plane_normal_components, radians_90, cos_PI2, sin_PI2, r45, S1. unfold triangle_normal. vunf. apply vec3_eq; simpl; ring.
  - apply T; [|lra| |lra]. { apply NN. unfold triangle_normal. vunf. lra. }
    rewrite plane_normal_components, r180, cos_PI, sin_PI, r45, S1. unfold triangle_normal. vunf. apply vec3_eq; simpl; ring.
  - apply T; [|lra| |lra]. { apply NN. unfold triangle_normal. vunf. lra. }
    rewrite plane_normal_components, R0, sin_0, cos_0, r45, S1. unfold triangle_normal. vunf. apply vec3_eq; simpl; ring.
  - apply T; [|exact dip6| |lra]. { apply NN. unfold triangle_normal. vunf. lra. }
    replace (-45) with (Ropp 45) by lra. rewrite plane_normal_components, rneg, r45, sin_neg, cos_neg, S1, radians_degrees, cos_PI4.
    assert (TA : sin (atan (sqrt 2)) = sqrt 2 * cos (atan (sqrt 2))).
    { pose proof (atan_bound (sqrt 2)) as AB. assert (CB : 0 < cos (atan (sqrt 2))) by (apply cos_gt_0; lra).
      rewrite <- (tan_atan (sqrt 2)) at 2. unfold tan. field. lra. }
    pose proof sqrt2_pos. rewrite TA. unfold triangle_normal. vunf. apply vec3_eq; simpl; field; lra.
Qed.

(** Of the cases set aside as edge cases, the flat one never has the strike 0, *)
Theorem C211_flat : forall svd, lapack svd -> check_orientation svd (Array (fst flat_case)) (snd flat_case) = Raise AssertionError /\
  exists f s, Orientation svd (Array (fst flat_case)) = Ok f /\ strike_dip f = Some (s, 0) /\ (s = 270 \/ s = 90).
Proof.
  intros svd HL. set (pts := fst flat_case). destruct (fit_exists svd pts HL) as (f & F). { simpl. lia. }
  destruct (C211_three_points svd pts f (V3 0 0 0) (V3 1 1 0) (V3 0 2 0) HL F) as (_ & _ & s & d & E & _ & _ & _ & U); try (simpl; tauto).
  { unfold triangle_normal. intros H. apply (f_equal vz) in H. vunf. cbn in H. lra. }
  { unfold triangle_normal. intros p [<-|[<-|[<-|[<-|[]]]]]; vunf; ring. }
  destruct (U 0 0 ltac:(lra)) as (-> & _).
  { assert (R0 : radians 0 = 0) by (unfold radians; field). rewrite plane_normal_components, R0, sin_0, cos_0. unfold triangle_normal. vunf. apply vec3_eq; simpl; ring. }
  destruct (C13_sign_independent svd svd pts ones ones f f s 0 s 0 HL HL F F ltac:(left; reflexivity) E E) as (_ & _ & _ & G).
  destruct (G eq_refl) as (G1 & _).
  split; [|exists f, s; auto]. unfold check_orientation, Orientation. rewrite F. cbn [rbind fst snd flat_case]. rewrite E.
  destruct (Req_EM_T s 0); [lra|reflexivity].
Qed.

(** and the vertical one passes or fails with the sign of the third axis. *)
Definition zneg (p : vec3) : vec3 := V3 (vx p) (vy p) (- vz p).
Definition opposite (svd : svd_fn) : svd_fn := fun a => let '(u, s, v) := svd a in (map zneg u, s, M3 (r0 v) (r1 v) (vneg (r2 v))).
Lemma opposite_svd : forall a u s v, is_svd a u s v -> is_svd a (map zneg u) s (M3 (r0 v) (r1 v) (vneg (r2 v))).
Proof.
  intros a u s v [f1 a0 a1 a2 b0 b1 b2 o s0 s1 s2].
  assert (SX : forall g, (forall p, g (zneg p) = g p) -> sumf g (map zneg u) = sumf g u) by (intros g H; rewrite sumf_map; now apply sumf_ext).
  assert (SN : forall g, (forall p, g (zneg p) = - g p) -> sumf g u = 0 -> sumf g (map zneg u) = 0).
  { intros g H Z. rewrite sumf_map. clear - H Z. assert (E : sumf (fun p => g (zneg p)) u = - sumf g u).
    { clear Z. induction u as [|p l IH]; simpl; [ring|]. rewrite IH, H. ring. } rewrite E, Z. ring. }
  split; auto.
  - rewrite f1, map_map. apply map_ext. intros p. unfold zneg. vunf. apply vec3_eq; simpl; ring.
  - rewrite SX; auto.
  - rewrite SX; auto.
  - rewrite SX; auto. intros p. simpl. ring.
  - rewrite SX; auto.
  - apply SN; auto. intros p. simpl. ring.
  - apply SN; auto. intros p. simpl. ring.
  - destruct o as (h0 & h1 & h2 & h3 & h4 & h5). unfold orthonormal. cbn [r0 r1 r2]. vunf. repeat split; lra.
Qed.
Lemma opposite_ok : forall svd, lapack svd -> lapack (opposite svd).
Proof.
  intros svd HL a Ha. specialize (HL a Ha). unfold svd_ok_on, opposite in *. destruct (svd a) as [[u s] v]. now apply opposite_svd.
Qed.
Theorem C211_vertical : forall svd, lapack svd ->
  let check x := check_orientation x (Array (fst vertical_case)) (snd vertical_case) in
  (check svd = Ok tt /\ check (opposite svd) = Raise AssertionError) \/
  (check svd = Raise AssertionError /\ check (opposite svd) = Ok tt).
Proof.
  intros svd HL check. set (pts := fst vertical_case) in *. pose proof (opposite_ok svd HL) as HL'.
  destruct (fit_exists svd pts HL) as (f & F). { simpl. lia. }
  destruct (fit_exists (opposite svd) pts HL') as (f' & F'). { simpl. lia. }
  assert (AX : r2 (p_axes f') = vneg (r2 (p_axes f))).
  { unfold PCAOrientation, run_svd in F, F'. change (length pts <? 3)%nat with false in *. rewrite has_zero_ones, vdiv_ones in F, F'.
    unfold opposite in F'. destruct (svd (centered pts)) as [[u s] v]. cbn [r0 r1 r2] in *. 
    simpl in F, F'. injection F as <-. injection F' as <-. reflexivity. }
  destruct (C211_three_points svd pts f (V3 1 0 0) (V3 1 1 (-1)) (V3 1 2 1) HL F) as (X & _ & _); try (simpl; tauto).
  { unfold triangle_normal. intros H. apply (f_equal vx) in H. vunf. cbn in H. lra. }
  { unfold triangle_normal. intros p [<-|[<-|[<-|[]]]]; vunf; ring. }
  destruct (C09_normal svd pts ones f HL F) as (Un & _ & SL & _).
  assert (R2 : r2 (p_axes f) = V3 1 0 0 \/ r2 (p_axes f) = V3 (-1) 0 0).
  { assert (NX : p_normal f = V3 1 0 0 \/ p_normal f = vneg (V3 1 0 0)).
    { apply parallel_up with (triangle_normal (V3 1 0 0) (V3 1 1 (-1)) (V3 1 2 1)); auto.
      - unfold unit3. vunf. ring.
      - unfold triangle_normal. intros H. apply (f_equal vx) in H. vunf. cbn in H. lra.
      - unfold triangle_normal. vunf. apply vec3_eq; simpl; ring. }
    unfold same_line in SL.
    assert (SL' : r2 (p_axes f) = p_normal f \/ r2 (p_axes f) = vneg (p_normal f)).
    { destruct SL as [SL|SL]; [left; congruence|right; rewrite SL; apply vec3_eq; simpl; ring]. }
    destruct SL' as [->| ->], NX as [->| ->]; [left|right|right|left]; apply vec3_eq; simpl; ring. }
  assert (E1 : strike_dip_of (V3 1 0 0) = Some (0, 90)).
  { unfold strike_dip_of. cbn [vx vy vz]. assert (N1 : norm (V3 1 0 0) = 1) by (unfold norm, nrm2; vunf; replace (1 * 1 + 0 * 0 + 0 * 0) with 1 by ring; apply sqrt_1).
    rewrite N1. destruct (Req_EM_T 1 0); [lra|]. replace (0 / 1) with 0 by field. rewrite acos_0, degrees_PI2.
    replace (atan2 1 0) with (PI / 2) by (rewrite <- (atan2_of_polar 1 (PI / 2)); [rewrite sin_PI2, cos_PI2; f_equal; ring|lra|pose proof PI_RGT_0; lra]).
    rewrite degrees_PI2. destruct (Rlt_dec 90 90); [lra|]. destruct (Rlt_dec (90 - 90) 0); [lra|]. do 2 f_equal. ring. }
  assert (E2 : strike_dip_of (V3 (-1) 0 0) = Some (180, 90)).
  { unfold strike_dip_of. cbn [vx vy vz]. assert (N1 : norm (V3 (-1) 0 0) = 1) by (unfold norm, nrm2; vunf; replace (-1 * -1 + 0 * 0 + 0 * 0) with 1 by ring; apply sqrt_1).
    rewrite N1. destruct (Req_EM_T 1 0); [lra|]. replace (0 / 1) with 0 by field. rewrite acos_0, degrees_PI2.
    replace (atan2 (-1) 0) with (- (PI / 2)) by (rewrite <- (atan2_of_polar 1 (- (PI / 2))); [rewrite sin_neg, cos_neg, sin_PI2, cos_PI2; f_equal; ring|lra|pose proof PI_RGT_0; lra]).
    rewrite degrees_opp, degrees_PI2. destruct (Rlt_dec 90 90); [lra|]. destruct (Rlt_dec (- (90) - 90) 0); [|lra]. do 2 f_equal. ring. }
  unfold check, check_orientation, Orientation. rewrite F, F'. cbn [rbind]. unfold strike_dip. rewrite AX.
  assert (N1 : vneg (V3 1 0 0) = V3 (-1) 0 0) by (apply vec3_eq; simpl; ring).
  assert (N2 : vneg (V3 (-1) 0 0) = V3 1 0 0) by (apply vec3_eq; simpl; ring).
  destruct R2 as [R2|R2]; rewrite R2, ?N1, ?N2, E1, E2; cbn [fst snd vertical_case]; [left|right];
    (split; repeat (destruct (Req_EM_T _ _)); try reflexivity; lra).
Qed.

Example C211_ex : let n := triangle_normal (V3 5 0 (-5)) (V3 0 5 0) (V3 0 0 0) in
  n <> vzero /\ (forall p, In p [V3 1 7 (-1); V3 (-2) 3 2] -> dot n p = dot n (V3 5 0 (-5))) /\ cross (plane_normal 0 45) n = vzero.
Proof.
  unfold triangle_normal. split. { intros H. apply (f_equal vx) in H. vunf. cbn in H. lra. }
  split. { intros p [<-|[<-|[]]]; vunf; ring. }
  assert (R0 : radians 0 = 0) by (unfold radians; field).
  assert (S1 : sin (PI / 4) = cos (PI / 4)) by now rewrite sin_PI4, cos_PI4.
  rewrite plane_normal_components, R0, sin_0, cos_0, r45, S1. vunf. apply vec3_eq; simpl; ring.
Qed.

Print Assumptions C211_three_points.
Print Assumptions C211_compares.
Print Assumptions C211_passes.
Print Assumptions C211_cases.
Print Assumptions C211_flat.
Print Assumptions C211_vertical.
