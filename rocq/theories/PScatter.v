(** C214: the scattered planes the fits are tested with. *)
From Coq Require Import Reals Lra Lia List Psatz Arith.
From Verif Require Import RVec Trig LNum SpecPlane SpecStat SpecNoise SpecScatter MPca LSvd LPca LFit LFit2 LExamples PPca PStat PRatio PStable PNoise MScatter.
Import ListNotations.
Open Scope R_scope.

(** * the data *)
Lemma combine_map : forall {A B C} (f : A -> B) (g : A -> C) l, combine (map f l) (map g l) = map (fun k => (f k, g k)) l.
Proof. intros. induction l; [reflexivity|]. cbn. now rewrite IHl. Qed.
Lemma spoil_map : forall s e (f : nat -> R) n, spoil s e (map f (seq 0 n)) = map (fun k => f k * (1 + e k * s)) (seq 0 n).
Proof.
  intros s e f n. unfold spoil. rewrite map_length, seq_length.
  replace (combine (seq 0 n) (map f (seq 0 n))) with (map (fun k => (k, f k)) (seq 0 n)).
  - rewrite map_map. reflexivity.
  - rewrite <- (map_id (seq 0 n)) at 2. now rewrite combine_map.
Qed.

(** make_plane raises exactly for columns of different lengths; otherwise all points are
    on the plane. Scattered, every coordinate of every point is changed by a multiple of
    itself. *)
Theorem C214_points : forall uniform coef n limit scatter randn,
  let c := V3 (vx coef) (vy coef) (vz coef * (limit / 2)) in
  let t i := V3 (uniform 0%nat i) (uniform 1%nat i) (vx c * uniform 0%nat i + vy c * uniform 1%nat i + vz c) in
  (exists pl, random_plane uniform coef n limit = Ok (pl, c) /\ transposed pl = map t (seq 0 n)) /\
  (exists pl, scattered_plane uniform coef n limit scatter randn = Ok (pl, c) /\
     transposed pl = map (stretched scatter randn t) (seq 0 n)) /\
  (forall x y a b d, (exists e, make_plane x y a b d = Raise e) <-> length x <> length y).
Proof.
  intros uniform coef n limit scatter randn c t.
  set (X := map (uniform 0%nat) (seq 0 n)). set (Y := map (uniform 1%nat) (seq 0 n)).
  set (Z := map (fun i => vx c * uniform 0%nat i + vy c * uniform 1%nat i + vz c) (seq 0 n)).
  assert (R0 : random_plane uniform coef n limit = Ok (X, Y, Z, c)).
  { unfold random_plane, make_plane. fold X Y. assert (L : length X = length Y) by (unfold X, Y; now rewrite !map_length).
    rewrite L, Nat.eqb_refl. cbn [rbind]. fold c. f_equal. f_equal. f_equal. unfold X, Y. rewrite combine_map, map_map. reflexivity. }
  split; [|split].
  - exists (X, Y, Z). split; [exact R0|]. unfold transposed, X, Y, Z. rewrite !combine_map, map_map. reflexivity.
  - exists (randomize scatter randn (X, Y, Z)). split; [unfold scattered_plane; now rewrite R0|].
    unfold transposed, randomize, X, Y, Z. rewrite !spoil_map, !combine_map, map_map. apply map_ext. intros i. unfold stretched, t. cbn [vx vy vz].
    apply vec3_eq; cbn [vx vy vz]; ring.
  - intros x y a b d. unfold make_plane. destruct (Nat.eqb_spec (length x) (length y)); split; intros H; eauto; try congruence.
    destruct H; discriminate.
Qed.

(** * on average *)
Lemma expect_squares_i : forall r N p (t : vecn) (e : matn) (v : vecn), (0 < r)%nat -> distribution N p -> zero_mean r N p e ->
  (forall i j, (i < r)%nat -> (j < r)%nat -> expect N p (fun w => e w i * e w j) = if (i =? j)%nat then v i else 0) ->
  expect N p (fun w => sumn r (fun i => (t i + e w i) * (t i + e w i)) - sumn r (fun i => t i + e w i) * sumn r (fun i => t i + e w i) / INR r) =
  sumn r (fun i => t i * t i) - sumn r t * sumn r t / INR r + (1 - / INR r) * sumn r v.
Proof.
  intros r N p t e v R0 D Z U. pose proof (lt_0_INR r R0) as P.
  set (one := fun _ : nat => 1). set (T := sumn r t).
  rewrite (expect_ext N p _ (fun w => (sumn r (fun i => t i * t i) - T * T / INR r) + (2 * dotn r t (e w) + ((-2 * T / INR r) * dotn r one (e w) + (sumn r (fun i => e w i * e w i) + (-1 / INR r) * sumn r (fun i => sumn r (fun j => e w i * e w j))))))).
  2:{ intros w. assert (E1 : sumn r (fun i => t i + e w i) = T + dotn r one (e w)).
      { rewrite sumn_plus. unfold T, dotn, one. f_equal. apply sumn_ext. intros; ring. }
      assert (E2 : sumn r (fun i => sumn r (fun j => e w i * e w j)) = dotn r one (e w) * dotn r one (e w)).
      { assert (S : dotn r one (e w) = sumn r (e w)) by (unfold dotn, one; apply sumn_ext; intros; ring). rewrite S.
        rewrite (sumn_ext r _ (fun i => sumn r (e w) * e w i)); [now rewrite sumn_scal|]. intros i _. rewrite sumn_scal. ring. }
      rewrite E2.
      rewrite E1. rewrite (sumn_ext r (fun i => (t i + e w i) * (t i + e w i)) (fun i => t i * t i + 2 * (t i * e w i) + e w i * e w i)) by (intros; ring).
      rewrite !sumn_plus, sumn_scal. change (dotn r t (e w)) with (sumn r (fun i => t i * e w i)). field. lra. }
  rewrite expect_plus, expect_const, !expect_plus, !expect_scal by auto.
  rewrite !(expect_linear r N p e Z), (expect_sum N p r (fun w i => e w i * e w i)), (expect_sum N p r (fun w i => sumn r (fun j => e w i * e w j))).
  rewrite (sumn_ext r (fun i => expect N p (fun w => e w i * e w i)) v). 2:{ intros i I. pose proof (U i i I I) as UU. rewrite Nat.eqb_refl in UU. exact UU. }
  rewrite (sumn_ext r (fun i => expect N p (fun w => sumn r (fun j => e w i * e w j))) v).
  2:{ intros i I. rewrite (expect_sum N p r (fun w j => e w i * e w j)).
      rewrite (sumn_ext r _ (fun j => (if (j =? i)%nat then 1 else 0) * v j)); [apply sumn_delta; exact I|].
      intros j J. rewrite U by auto. rewrite (Nat.eqb_sym j i). destruct (Nat.eqb_spec i j); [subst j|]; ring. }
  field. lra.
Qed.

Definition delta (s : R) (e : nat -> nat -> R) (t : nat -> vec3) (i : nat) : vec3 :=
  V3 (s * e 0%nat i * vx (t i)) (s * e 1%nat i * vy (t i)) (s * e 2%nat i * vz (t i)).
Lemma stretched_observed : forall s e t r, map (stretched s e t) (seq 0 r) = observed r t (delta s e t).
Proof. reflexivity. Qed.
Lemma exact_map : forall t r, map t (seq 0 r) = exact r t.
Proof. intros. unfold exact, observed. apply map_ext. intros i. apply vec3_eq; vunf; ring. Qed.
Lemma delta_moments : forall r N p e s t d, distribution N p -> white r N p e ->
  zero_mean r N p (fun w i => dot d (delta s (e w) t i)) /\
  (forall i j, (i < r)%nat -> (j < r)%nat -> expect N p (fun w => dot d (delta s (e w) t i) * dot d (delta s (e w) t j)) =
     if (i =? j)%nat then s * s * (Rsqr (vx d * vx (t i)) + Rsqr (vy d * vy (t i)) + Rsqr (vz d * vz (t i))) else 0).
Proof.
  intros r N p e s t d D (W1 & W2).
  assert (F : forall w i, dot d (delta s (e w) t i) = s * vx d * vx (t i) * e w 0%nat i + (s * vy d * vy (t i) * e w 1%nat i + s * vz d * vz (t i) * e w 2%nat i)).
  { intros w i. unfold dot, delta. cbn [vx vy vz]. ring. }
  split.
  - intros i I. rewrite (expect_ext N p _ _ (fun w => F w i)). rewrite !expect_plus, !expect_scal.
    rewrite !W1 by (auto; lia). ring.
  - intros i j I J.
    set (A0 := s * vx d * vx (t i)). set (A1 := s * vy d * vy (t i)). set (A2 := s * vz d * vz (t i)).
    set (B0 := s * vx d * vx (t j)). set (B1 := s * vy d * vy (t j)). set (B2 := s * vz d * vz (t j)).
    rewrite (expect_ext N p _ (fun w =>
      (A0 * B0) * (e w 0%nat i * e w 0%nat j) + ((A0 * B1) * (e w 0%nat i * e w 1%nat j) + ((A0 * B2) * (e w 0%nat i * e w 2%nat j) +
      ((A1 * B0) * (e w 1%nat i * e w 0%nat j) + ((A1 * B1) * (e w 1%nat i * e w 1%nat j) + ((A1 * B2) * (e w 1%nat i * e w 2%nat j) +
      ((A2 * B0) * (e w 2%nat i * e w 0%nat j) + ((A2 * B1) * (e w 2%nat i * e w 1%nat j) + (A2 * B2) * (e w 2%nat i * e w 2%nat j)))))))))).
    2:{ intros w. rewrite !F. unfold A0, A1, A2, B0, B1, B2. ring. }
    rewrite !expect_plus, !expect_scal. rewrite !W2 by (auto; lia). cbn [Nat.eqb andb].
    unfold A0, A1, A2, B0, B1, B2. destruct (Nat.eqb_spec i j) as [E|E]; [subst j; unfold Rsqr|]; ring.
Qed.
Lemma expect_Q_scatter : forall r N p e s t d, (0 < r)%nat -> distribution N p -> white r N p e ->
  expect N p (fun w => Q (centered (map (stretched s (e w) t) (seq 0 r))) d d) =
  Q (centered (map t (seq 0 r))) d d + (INR r - 1) * (s * s * mean_square r t d).
Proof.
  intros r N p e s t d R0 D W. destruct (delta_moments r N p e s t d D W) as (Z & U). pose proof (lt_0_INR r R0) as P.
  rewrite (expect_ext N p _ (fun w => sumn r (fun i => (dot d (t i) + dot d (delta s (e w) t i)) * (dot d (t i) + dot d (delta s (e w) t i))) -
     sumn r (fun i => dot d (t i) + dot d (delta s (e w) t i)) * sumn r (fun i => dot d (t i) + dot d (delta s (e w) t i)) / INR r)).
  2:{ intros w. rewrite stretched_observed. apply observed_Q. exact R0. }
  rewrite (expect_squares_i r N p (fun i => dot d (t i)) (fun w i => dot d (delta s (e w) t i)) _ R0 D Z U).
  rewrite exact_map. unfold exact. rewrite observed_Q by auto.
  assert (Z0 : forall x, x + dot d vzero = x) by (intros; unfold vzero; vunf; ring).
  rewrite (sumn_ext r (fun i => dot d (t i) + dot d vzero) (fun i => dot d (t i))) by (intros; apply Z0).
  rewrite (sumn_ext r (fun i => (dot d (t i) + dot d vzero) * (dot d (t i) + dot d vzero)) (fun i => dot d (t i) * dot d (t i))) by (intros; now rewrite Z0).
  unfold mean_square. rewrite sumn_scal. field. lra.
Qed.
Lemma scatter_length : forall s e t r, length (map (stretched s e t) (seq 0 r)) = r.
Proof. intros. now rewrite map_length, seq_length. Qed.

(** The covariance a fit of scattered points describes is on average that of the true
    points plus the squared scatter times the mean square of the coordinates: more for
    points farther from the origin, and different along the coordinate axes. *)
Theorem C214_average : forall svd r N p e s t f v, lapack svd -> (3 <= r)%nat -> distribution N p -> white r N p e ->
  (forall w, PCAOrientation svd (map (stretched s (e w) t) (seq 0 r)) None None = Ok (f w)) -> (forall w, eigenvalues (f w) = Some (v w)) ->
  forall d, expect N p (fun w => described (p_axes (f w)) (v w) d) = var_along d (map t (seq 0 r)) + s * s * mean_square r t d.
Proof.
  intros svd r N p e s t f v HL R D W F V d.
  assert (P : 2 <= INR r - 1) by (apply (le_INR 3) in R; simpl in R; lra).
  rewrite (expect_ext N p _ (fun w => / (INR r - 1) * Q (centered (map (stretched s (e w) t) (seq 0 r))) d d)).
  2:{ intros w. rewrite (described_var _ _ _ _ d HL (F w) (V w)), scatter_length. unfold Rdiv. ring. }
  rewrite expect_scal, (expect_Q_scatter r N p e s t d) by (auto; lia).
  assert (NE : map t (seq 0 r) <> []). { intros X. apply (f_equal (@length vec3)) in X. rewrite map_length, seq_length in X. simpl in X. lia. }
  destruct (mean_exists _ NE) as (m & M).
  rewrite (var_along_Q _ d m M) by (rewrite map_length, seq_length; auto). rewrite map_length, seq_length. field. lra.
Qed.

(** bounds of the described variance *)
Lemma described_bounds : forall svd arr f v d, lapack svd -> PCAOrientation svd arr None None = Ok f -> eigenvalues f = Some v -> unit3 d ->
  vz v <= described (p_axes f) v d <= vx v.
Proof.
  intros svd arr f v d HL F V U. destruct (C18_eigenvalues_are_variances svd _ _ HL F) as (v' & V' & _ & _ & _ & (O1 & O2) & O3 & _).
  rewrite V in V'. injection V' as <-. destruct (fit_inv _ _ _ HL F) as (_ & u & m & S & _).
  pose proof (parseval _ d (svd_v _ _ _ _ S)) as PA. unfold unit3 in U. rewrite U in PA. unfold described.
  pose proof (Rle_0_sqr (dot (r0 (p_axes f)) d)) as Q0. pose proof (Rle_0_sqr (dot (r1 (p_axes f)) d)) as Q1. pose proof (Rle_0_sqr (dot (r2 (p_axes f)) d)) as Q2.
  assert (PA' : Rsqr (dot (r0 (p_axes f)) d) + Rsqr (dot (r1 (p_axes f)) d) + Rsqr (dot (r2 (p_axes f)) d) = 1) by (unfold Rsqr; lra).
  set (q0 := Rsqr (dot (r0 (p_axes f)) d)) in *. set (q1 := Rsqr (dot (r1 (p_axes f)) d)) in *. set (q2 := Rsqr (dot (r2 (p_axes f)) d)) in *.
  pose proof (Rmult_le_pos (vx v - vz v) q0 ltac:(lra) Q0). pose proof (Rmult_le_pos (vy v - vz v) q1 ltac:(lra) Q1).
  pose proof (Rmult_le_pos (vx v - vy v) q1 ltac:(lra) Q1). pose proof (Rmult_le_pos (vx v - vz v) q2 ltac:(lra) Q2).
  assert (X0 : vx v = vx v * (q0 + q1 + q2)) by (rewrite PA'; ring). assert (X2 : vz v = vz v * (q0 + q1 + q2)) by (rewrite PA'; ring).
  split; lra.
Qed.
(** For points of a plane the reported noise is on average at most the squared scatter
    times the mean square along its normal. *)
Theorem C214_noise : forall svd r N p e s t f v n c, lapack svd -> (3 <= r)%nat -> distribution N p -> white r N p e ->
  (forall w, PCAOrientation svd (map (stretched s (e w) t) (seq 0 r)) None None = Ok (f w)) -> (forall w, eigenvalues (f w) = Some (v w)) ->
  unit3 n -> (forall i, (i < r)%nat -> dot n (t i) = c) ->
  expect N p (fun w => described (p_axes (f w)) (v w) n) = s * s * mean_square r t n /\
  expect N p (fun w => vz (v w)) <= s * s * mean_square r t n <= expect N p (fun w => vx (v w)).
Proof.
  intros svd r N p e s t f v n c HL R D W F V U PL. pose proof (C214_average svd r N p e s t f v HL R D W F V n) as A. cbn beta in A.
  assert (P : 2 <= INR r - 1) by (apply (le_INR 3) in R; simpl in R; lra).
  assert (NE : map t (seq 0 r) <> []). { intros X. apply (f_equal (@length vec3)) in X. rewrite map_length, seq_length in X. simpl in X. lia. }
  assert (V0 : var_along n (map t (seq 0 r)) = 0).
  { destruct (mean_exists _ NE) as (m & M). rewrite (var_along_Q _ n m M) by (rewrite map_length, seq_length; auto).
    rewrite exact_map. unfold exact. rewrite observed_Q by lia.
    assert (E : forall i, (i < r)%nat -> dot n (t i) + dot n vzero = c) by (intros i H; rewrite (PL i H); unfold vzero; vunf; ring).
    rewrite (sumn_ext r _ (fun _ => c * c)) by (intros; now rewrite E). rewrite (sumn_ext r (fun i => dot n (t i) + dot n vzero) (fun _ => c)) by auto.
    rewrite !sumn_const, observed_length. field. split; lra. }
  rewrite V0, Rplus_0_l in A. rewrite <- A. split; [reflexivity|].
  split; apply expect_le; auto; intros w _; apply (described_bounds svd _ _ _ n HL (F w) (V w) U).
Qed.

(** * far from the origin *)
Definition raised (h : R) (t : nat -> vec3) (i : nat) : vec3 := V3 (vx (t i)) (vy (t i)) (vz (t i) + h).
Lemma raised_Q : forall r t h d, (0 < r)%nat -> vz d = 0 -> Q (centered (map (raised h t) (seq 0 r))) d d = Q (centered (map t (seq 0 r))) d d.
Proof.
  intros r t h d R Z. rewrite !exact_map. unfold exact. rewrite !observed_Q by auto.
  assert (E : forall i, dot d (raised h t i) = dot d (t i)) by (intros i; unfold dot, raised; cbn [vx vy vz]; rewrite Z; ring).
  rewrite (sumn_ext r (fun i => (dot d (raised h t i) + dot d vzero) * (dot d (raised h t i) + dot d vzero)) (fun i => (dot d (t i) + dot d vzero) * (dot d (t i) + dot d vzero))) by (intros; now rewrite E).
  rewrite (sumn_ext r (fun i => dot d (raised h t i) + dot d vzero) (fun i => dot d (t i) + dot d vzero)) by (intros; now rewrite E). reflexivity.
Qed.
Lemma horizontal_Q : forall l d, unit3 d -> vz d = 0 -> Q l d d <= Q l (V3 1 0 0) (V3 1 0 0) + Q l (V3 0 1 0) (V3 0 1 0).
Proof.
  intros l d U Z. unfold Q. induction l as [|p l IH]; cbn [sumf]; [lra|].
  unfold unit3, nrm2, dot in U. rewrite Z in U.
  assert (H : dot p d * dot p d <= dot p (V3 1 0 0) * dot p (V3 1 0 0) + dot p (V3 0 1 0) * dot p (V3 0 1 0)); [|lra].
  unfold dot. rewrite Z. cbn [vx vy vz].
  assert (S : vx p * vx p + vy p * vy p = (vx p * vx p + vy p * vy p) * (vx d * vx d + vy d * vy d)) by (replace (vx d * vx d + vy d * vy d) with 1 by lra; ring).
  pose proof (Rle_0_sqr (vx p * vy d - vy p * vx d)) as G. unfold Rsqr in G. lra.
Qed.

(** However the points lie, raised far enough the scatter makes the vertical the direction
    of greatest average variance: a horizontal bed looks like a pillar. *)
Theorem C214_far : forall r s t, (3 <= r)%nat -> s <> 0 -> exists H, forall h, H <= h -> forall svd N p e f v,
  lapack svd -> distribution N p -> white r N p e ->
  (forall w, PCAOrientation svd (map (stretched s (e w) (raised h t)) (seq 0 r)) None None = Ok (f w)) -> (forall w, eigenvalues (f w) = Some (v w)) ->
  forall d, unit3 d -> vz d = 0 ->
  expect N p (fun w => described (p_axes (f w)) (v w) d) < expect N p (fun w => described (p_axes (f w)) (v w) (V3 0 0 1)).
Proof.
  intros r s t R S. assert (P : 3 <= INR r) by (apply (le_INR 3) in R; simpl in R; lra).
  set (A := centered (map t (seq 0 r))).
  set (W := (Q A (V3 1 0 0) (V3 1 0 0) + Q A (V3 0 1 0) (V3 0 1 0)) / (INR r - 1)).
  set (M := sumn r (fun i => vx (t i) * vx (t i) + vy (t i) * vy (t i) + vz (t i) * vz (t i)) / INR r).
  assert (S2 : 0 < s * s) by (apply Rsqr_pos_lt; auto).
  assert (W0 : 0 <= W).
  { unfold W. apply Rmult_le_pos; [|left; apply Rinv_0_lt_compat; lra]. unfold Q. 
    apply Rplus_le_le_0_compat; apply sumf_nonneg; intros; apply Rle_0_sqr. }
  assert (M0 : 0 <= M).
  { unfold M. apply Rmult_le_pos; [|left; apply Rinv_0_lt_compat; lra]. apply sumn_nonneg. intros i _.
    pose proof (Rle_0_sqr (vx (t i))). pose proof (Rle_0_sqr (vy (t i))). pose proof (Rle_0_sqr (vz (t i))). unfold Rsqr in *. lra. }
  exists (1 + 2 * (W / (s * s) + M + M)). intros h Hh svd N p e f v HL D WH F V d U Z.
  pose proof (C214_average svd r N p e s (raised h t) f v HL R D WH F V) as AV. rewrite !AV.
  assert (NE : map (raised h t) (seq 0 r) <> []). { intros X. apply (f_equal (@length vec3)) in X. rewrite map_length, seq_length in X. simpl in X. lia. }
  destruct (mean_exists _ NE) as (m & MM).
  rewrite !(var_along_Q _ _ m MM) by (rewrite map_length, seq_length; lia). rewrite !map_length, !seq_length.
  rewrite (raised_Q r t h d) by (auto; lia). fold A.
  assert (B1 : Q A d d / (INR r - 1) <= W).
  { unfold W, Rdiv. apply Rmult_le_compat_r; [left; apply Rinv_0_lt_compat; lra|]. apply horizontal_Q; auto. }
  assert (B2 : 0 <= Q (centered (map (raised h t) (seq 0 r))) (V3 0 0 1) (V3 0 0 1) / (INR r - 1)).
  { apply Rmult_le_pos; [|left; apply Rinv_0_lt_compat; lra]. unfold Q. apply sumf_nonneg. intros; apply Rle_0_sqr. }
  assert (SL : forall f g, (forall i, f i <= g i) -> sumn r f / INR r <= sumn r g / INR r).
  { intros f0 g0 H. apply Rmult_le_compat_r; [left; apply Rinv_0_lt_compat; lra|].
    assert (0 <= sumn r (fun i => g0 i - f0 i)) by (apply sumn_nonneg; intros i _; specialize (H i); lra). rewrite sumn_minus in H0. lra. }
  assert (B3 : mean_square r (raised h t) d <= M).
  { unfold mean_square, M. apply SL. intros i. unfold raised. cbn [vx vy vz]. rewrite Z. unfold Rsqr.
    unfold unit3, nrm2, dot in U. rewrite Z in U.
    pose proof (Rle_0_sqr (vx (t i) * vy d)) as G1. pose proof (Rle_0_sqr (vy (t i) * vx d)) as G2. pose proof (Rle_0_sqr (vz (t i))) as G3. unfold Rsqr in *.
    assert (E : vx (t i) * vx (t i) + vy (t i) * vy (t i) = (vx (t i) * vx (t i) + vy (t i) * vy (t i)) * (vx d * vx d + vy d * vy d)) by (replace (vx d * vx d + vy d * vy d) with 1 by lra; ring).
    lra. }
  assert (B4 : h * h / 2 - M <= mean_square r (raised h t) (V3 0 0 1)).
  { replace (h * h / 2 - M) with (sumn r (fun i => h * h / 2 - (vx (t i) * vx (t i) + vy (t i) * vy (t i) + vz (t i) * vz (t i))) / INR r).
    - unfold mean_square. apply SL. intros i. unfold raised. cbn [vx vy vz]. unfold Rsqr.
      pose proof (Rle_0_sqr (vx (t i))). pose proof (Rle_0_sqr (vy (t i))). pose proof (Rle_0_sqr (h + 2 * vz (t i))). unfold Rsqr in *. lra.
    - rewrite sumn_minus, sumn_const. unfold M. field. lra. }
  assert (K : W / (s * s) + M + M < h * h / 2).
  { assert (0 <= W / (s * s)) by (apply Rmult_le_pos; [auto|left; apply Rinv_0_lt_compat; auto]).
    assert (h * 1 <= h * h) by (apply Rmult_le_compat_l; lra). lra. }
  assert (KK : s * s * (W / (s * s) + M + M) < s * s * (h * h / 2)) by (apply Rmult_lt_compat_l; auto).
  replace (s * s * (W / (s * s) + M + M)) with (W + s * s * M + s * s * M) in KK by (field; auto).
  pose proof (Rmult_le_compat_l (s * s) _ _ (Rlt_le _ _ S2) B3). pose proof (Rmult_le_compat_l (s * s) _ _ (Rlt_le _ _ S2) B4). lra.
Qed.

(** random_pca fits the scattered points, and has no name for the other generator. *)
Theorem C214_random_pca : forall svd uniform coef randn, lapack svd ->
  random_pca svd uniform coef randn false = Raise NameError /\
  exists f, random_pca svd uniform coef randn true = Ok f /\
    let c := V3 (vx coef) (vy coef) (vz coef * 50) in
    p_array f = map (stretched (1 / 2) randn (fun i => V3 (uniform 0%nat i) (uniform 1%nat i) (vx c * uniform 0%nat i + vy c * uniform 1%nat i + vz c))) (seq 0 1000).
Proof.
  intros svd uniform coef randn HL. split; [reflexivity|].
  destruct (C214_points uniform coef 1000 100 (1 / 2) randn) as (_ & (pl & E & T) & _).
  unfold random_pca. rewrite E. cbn [rbind]. rewrite T.
  assert (N3 : (3 <= length (map (stretched (1 / 2) randn (fun i => V3 (uniform 0%nat i) (uniform 1%nat i) (vx (V3 (vx coef) (vy coef) (vz coef * (100 / 2))) * uniform 0%nat i + vy (V3 (vx coef) (vy coef) (vz coef * (100 / 2))) * uniform 1%nat i + vz (V3 (vx coef) (vy coef) (vz coef * (100 / 2)))))) (seq 0 1000)))%nat) by (rewrite map_length, seq_length; lia).
  destruct (fit_exists svd _ HL N3) as (f & F). exists f. split; [exact F|].
  cbn zeta. cbn [vx vy vz] in *. replace (100 / 2) with 50 in F by lra. 
  destruct (fit_inv _ _ _ HL F) as (_ & u & m & _ & _ & _ & _ & _ & A & _). exact A.
Qed.

(** one random number differs from 0, equally likely any and of either sign *)
Definition one_number (w c i : nat) : R := if (w / 2 =? 3 * c + i)%nat then (if Nat.even w then 3 else -3) else 0.
Example C214_ex : distribution 18 (fun _ => 1 / 18) /\ white 3 18 (fun _ => 1 / 18) one_number /\
  stretched (1 / 2) (one_number 0) (fun _ => V3 2 0 10) 0 = V3 5 0 10 /\
  forall w, exists f v, PCAOrientation svd_ref (map (stretched (1 / 2) (one_number w) (raised 7 four)) (seq 0 3)) None None = Ok f /\ eigenvalues f = Some v.
Proof.
  split; [|split; [|split]].
  - split; [intros; lra|]. cbn [sumn]. lra.
  - split.
    + intros c i C I. assert (c = 0 \/ c = 1 \/ c = 2)%nat as [->|[->| ->]] by lia; assert (i = 0 \/ i = 1 \/ i = 2)%nat as [->|[->| ->]] by lia;
      unfold expect, one_number; cbn; lra.
    + intros c d i j C D I J. assert (c = 0 \/ c = 1 \/ c = 2)%nat as [->|[->| ->]] by lia; assert (i = 0 \/ i = 1 \/ i = 2)%nat as [->|[->| ->]] by lia;
      assert (d = 0 \/ d = 1 \/ d = 2)%nat as [->|[->| ->]] by lia; assert (j = 0 \/ j = 1 \/ j = 2)%nat as [->|[->| ->]] by lia;
      unfold expect, one_number; cbn; lra.
  - unfold stretched, one_number. cbn. apply vec3_eq; cbn [vx vy vz]; lra.
  - intros w. destruct (fit_exists svd_ref (map (stretched (1 / 2) (one_number w) (raised 7 four)) (seq 0 3))) as (f & F); [apply lapack_ref|cbn; lia|].
    destruct (C18_eigenvalues_are_variances svd_ref _ _ lapack_ref F) as (v & V & _). exists f, v. auto.
Qed.

Print Assumptions C214_points.
Print Assumptions C214_average.
Print Assumptions C214_noise.
Print Assumptions C214_far.
Print Assumptions C214_random_pca.
