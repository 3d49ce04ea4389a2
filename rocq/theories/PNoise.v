(** C212: what a fit reports on average. *)
From Coq Require Import Reals Lra Lia List Psatz Arith.
From Verif Require Import RVec Trig LNum SpecPlane SpecStat SpecNoise MPca LSvd LPca LFit LFit2 LExamples PPca PStat PRatio PStable.
Import ListNotations.
Open Scope R_scope.

Lemma sumf_seq : forall (f : nat -> R) n, sumf f (seq 0 n) = sumn n f.
Proof. intros f n. induction n; [reflexivity|]. rewrite seq_S, sumf_app, IHn. cbn. ring. Qed.

Lemma Q_raw : forall a d e, a <> [] ->
  Q (centered a) d e = sumf (fun p => dot p d * dot p e) a - sumf (fun p => dot p d) a * sumf (fun p => dot p e) a / INR (length a).
Proof.
  intros a d e NE. destruct (mean_exists a NE) as (m & M). rewrite (centered_mean m) by auto. unfold Q. rewrite sumf_map.
  destruct M as (_ & M). assert (P : 0 < INR (length a)) by (apply lt_0_INR; destruct a; [congruence|simpl; lia]).
  assert (S : forall d, sumf (fun p => dot p d) a = INR (length a) * dot m d).
  { intros x. assert (E : sumf (fun p => dot p x) a = dot (vsum a) x). { unfold vsum. clear. induction a as [|q l IH]; cbn [sumf]; [vunf; ring|]. rewrite IH. vunf. ring. }
    rewrite E, <- M. vunf. ring. }
  assert (E : sumf (fun p => dot (vsub p m) d * dot (vsub p m) e) a =
     sumf (fun p => dot p d * dot p e) a - dot m e * sumf (fun p => dot p d) a - dot m d * sumf (fun p => dot p e) a + INR (length a) * (dot m d * dot m e)).
  { clear. induction a as [|q l IH]. { cbn. ring. }
    cbn [sumf List.length]. rewrite S_INR, IH.
    replace (dot (vsub q m) d) with (dot q d - dot m d) by (vunf; ring). replace (dot (vsub q m) e) with (dot q e - dot m e) by (vunf; ring). ring. }
  rewrite E, !S. field. lra.
Qed.

Lemma expect_le : forall N p X Y, distribution N p -> (forall w, (w < N)%nat -> X w <= Y w) -> expect N p X <= expect N p Y.
Proof.
  intros N p X Y (P & _) H. unfold expect. assert (G : forall k, (k <= N)%nat -> sumn k (fun w => p w * X w) <= sumn k (fun w => p w * Y w)).
  { induction k; intros K; cbn [sumn]; [lra|]. pose proof (IHk ltac:(lia)). pose proof (Rmult_le_compat_l _ _ _ (P k ltac:(lia)) (H k ltac:(lia))). lra. }
  apply G. lia.
Qed.
Lemma expect_same : forall N p X Y, (forall w, (w < N)%nat -> X w = Y w) -> expect N p X = expect N p Y.
Proof. intros N p X Y H. apply sumn_ext. intros w W. now rewrite H. Qed.

(** sum of squares about the mean, of numbers with errors *)
Lemma expect_squares : forall r N p (t : vecn) (e : matn) v, (0 < r)%nat -> distribution N p -> zero_mean r N p e -> uncorrelated r N p e v ->
  expect N p (fun w => sumn r (fun i => (t i + e w i) * (t i + e w i)) - sumn r (fun i => t i + e w i) * sumn r (fun i => t i + e w i) / INR r) =
  sumn r (fun i => t i * t i) - sumn r t * sumn r t / INR r + (INR r - 1) * v.
Proof.
  intros r N p t e v R0 D Z U. pose proof (lt_0_INR r R0) as P.
  set (one := fun _ : nat => 1). set (T := sumn r t).
  rewrite (expect_ext N p _ (fun w => (sumn r (fun i => t i * t i) - T * T / INR r) + (2 * dotn r t (e w) + ((-2 * T / INR r) * dotn r one (e w) + (sumn r (fun i => e w i * e w i) + (-1 / INR r) * (dotn r one (e w) * dotn r one (e w))))))).
  2:{ intros w. assert (E1 : sumn r (fun i => t i + e w i) = T + dotn r one (e w)).
      { rewrite sumn_plus. unfold T, dotn, one. f_equal. apply sumn_ext. intros; ring. }
      rewrite E1. rewrite (sumn_ext r (fun i => (t i + e w i) * (t i + e w i)) (fun i => t i * t i + 2 * (t i * e w i) + e w i * e w i)) by (intros; ring).
      rewrite !sumn_plus, sumn_scal. change (dotn r t (e w)) with (sumn r (fun i => t i * e w i)). field. lra. }
  rewrite expect_plus, expect_const, !expect_plus, !expect_scal by auto.
  rewrite !(expect_linear r N p e Z), (expect_product r N p e v U), (expect_sum N p r (fun w i => e w i * e w i)).
  rewrite (sumn_ext r (fun i => expect N p (fun w => e w i * e w i)) (fun _ => v)). 2:{ intros i I. pose proof (U i i I I) as UU. rewrite Nat.eqb_refl in UU. exact UU. }
  rewrite sumn_const. unfold dotn, one. rewrite sumn_const. field. lra.
Qed.

Lemma observed_length : forall r t e, length (observed r t e) = r.
Proof. intros. unfold observed. now rewrite map_length, seq_length. Qed.
Lemma observed_sum : forall r t e (g : vec3 -> R), sumf g (observed r t e) = sumn r (fun i => g (vadd (t i) (e i))).
Proof. intros. unfold observed. rewrite sumf_map. apply sumf_seq. Qed.
Lemma observed_ne : forall r t e, (0 < r)%nat -> observed r t e <> [].
Proof. intros r t e R H. apply (f_equal (@length vec3)) in H. rewrite observed_length in H. simpl in H. lia. Qed.

Lemma observed_Q : forall r t e d, (0 < r)%nat -> Q (centered (observed r t e)) d d =
  sumn r (fun i => (dot d (t i) + dot d (e i)) * (dot d (t i) + dot d (e i))) -
  sumn r (fun i => dot d (t i) + dot d (e i)) * sumn r (fun i => dot d (t i) + dot d (e i)) / INR r.
Proof.
  intros r t e d R. rewrite Q_raw by now apply observed_ne. rewrite !observed_sum, observed_length.
  assert (E : forall i, dot (vadd (t i) (e i)) d = dot d (t i) + dot d (e i)) by (intros; vunf; ring).
  rewrite (sumn_ext r (fun i => dot (vadd (t i) (e i)) d) (fun i => dot d (t i) + dot d (e i))) by auto.
  rewrite (sumn_ext r (fun i => dot (vadd (t i) (e i)) d * dot (vadd (t i) (e i)) d) (fun i => (dot d (t i) + dot d (e i)) * (dot d (t i) + dot d (e i)))) by (intros; now rewrite !E).
  reflexivity.
Qed.

Definition exact (r : nat) (t : nat -> vec3) : list vec3 := observed r t (fun _ => vzero).
Lemma expect_Q : forall r N p t e s2 d, (0 < r)%nat -> distribution N p -> isotropic r N p e s2 ->
  expect N p (fun w => Q (centered (observed r t (e w))) d d) = Q (centered (exact r t)) d d + (INR r - 1) * (s2 * nrm2 d).
Proof.
  intros r N p t e s2 d R D I. destruct (I d) as (Z & U).
  rewrite (expect_ext N p _ _ (fun w => observed_Q r t (e w) d R)).
  rewrite (expect_squares r N p (fun i => dot d (t i)) (fun w i => dot d (e w i)) _ R D Z U).
  unfold exact. rewrite observed_Q by auto. f_equal.
  assert (Z0 : forall x, x + dot d vzero = x) by (intros; unfold vzero; vunf; ring).
  rewrite (sumn_ext r (fun i => dot d (t i) + dot d vzero) (fun i => dot d (t i))) by (intros; apply Z0).
  f_equal. apply sumn_ext. intros. now rewrite Z0.
Qed.

Lemma described_var : forall svd arr f v d, lapack svd -> PCAOrientation svd arr None None = Ok f -> eigenvalues f = Some v ->
  described (p_axes f) v d = Q (centered arr) d d / (INR (length arr) - 1).
Proof.
  intros svd arr f v d HL HF E. destruct (eigenvalues_value _ _ _ _ HL HF E) as (E0 & E1 & E2).
  destruct (fit_inv _ _ _ HL HF) as (N3 & u & m & S & _). unfold described. rewrite (Q_svd _ _ _ _ d d S), E0, E1, E2. unfold Rsqr.
  apply (le_INR 3) in N3. simpl in N3. field. lra.
Qed.

(** The covariance described by the axes and eigenvalues of a fit is on average that of the
    true points, plus the variance of the errors in every direction. *)
Theorem C212_average : forall svd r N p t e s2 f v, lapack svd -> (3 <= r)%nat -> distribution N p -> isotropic r N p e s2 ->
  (forall w, PCAOrientation svd (observed r t (e w)) None None = Ok (f w)) -> (forall w, eigenvalues (f w) = Some (v w)) ->
  forall d, expect N p (fun w => described (p_axes (f w)) (v w) d) = var_along d (exact r t) + s2 * nrm2 d.
Proof.
  intros svd r N p t e s2 f v HL R D I F V d.
  assert (P : 2 <= INR r - 1) by (apply (le_INR 3) in R; simpl in R; lra).
  rewrite (expect_ext N p _ (fun w => / (INR r - 1) * Q (centered (observed r t (e w))) d d)).
  2:{ intros w. rewrite (described_var _ _ _ _ d HL (F w) (V w)), observed_length. unfold Rdiv. ring. }
  rewrite expect_scal, (expect_Q r N p t e s2 d) by (auto; lia).
  destruct (mean_exists (exact r t)) as (m & M); [apply observed_ne; lia|].
  rewrite (var_along_Q _ d m M) by (unfold exact; rewrite observed_length; auto). unfold exact. rewrite observed_length. field. lra.
Qed.

(** The greatest eigenvalue is on average at least the greatest variance of the true points
    plus that of the errors; the least is on average at most the least one. *)
Theorem C212_extremes : forall svd r N p t e s2 f v, lapack svd -> (3 <= r)%nat -> distribution N p -> isotropic r N p e s2 ->
  (forall w, PCAOrientation svd (observed r t (e w)) None None = Ok (f w)) -> (forall w, eigenvalues (f w) = Some (v w)) ->
  forall d, unit3 d ->
  expect N p (fun w => vz (v w)) <= var_along d (exact r t) + s2 <= expect N p (fun w => vx (v w)).
Proof.
  intros svd r N p t e s2 f v HL R D I F V d U. pose proof (C212_average svd r N p t e s2 f v HL R D I F V d) as A. cbn beta in A.
  unfold unit3 in U. rewrite U, Rmult_1_r in A. rewrite <- A.
  assert (B : forall w, vz (v w) <= described (p_axes (f w)) (v w) d <= vx (v w)).
  { intros w. destruct (C18_eigenvalues_are_variances svd _ _ HL (F w)) as (v' & V' & _ & _ & _ & (O1 & O2) & O3 & _).
    rewrite (V w) in V'. injection V' as <-. destruct (fit_inv _ _ _ HL (F w)) as (_ & u & m & S & _).
    pose proof (parseval _ d (svd_v _ _ _ _ S)) as PA. rewrite U in PA. unfold described.
    pose proof (Rle_0_sqr (dot (r0 (p_axes (f w))) d)) as Q0. pose proof (Rle_0_sqr (dot (r1 (p_axes (f w))) d)) as Q1. pose proof (Rle_0_sqr (dot (r2 (p_axes (f w))) d)) as Q2.
    assert (PA' : Rsqr (dot (r0 (p_axes (f w))) d) + Rsqr (dot (r1 (p_axes (f w))) d) + Rsqr (dot (r2 (p_axes (f w))) d) = 1) by (unfold Rsqr; lra).
    set (q0 := Rsqr (dot (r0 (p_axes (f w))) d)) in *. set (q1 := Rsqr (dot (r1 (p_axes (f w))) d)) in *. set (q2 := Rsqr (dot (r2 (p_axes (f w))) d)) in *.
    pose proof (Rmult_le_pos (vx (v w) - vz (v w)) q0 ltac:(lra) Q0). pose proof (Rmult_le_pos (vy (v w) - vz (v w)) q1 ltac:(lra) Q1).
    pose proof (Rmult_le_pos (vx (v w) - vy (v w)) q1 ltac:(lra) Q1). pose proof (Rmult_le_pos (vx (v w) - vz (v w)) q2 ltac:(lra) Q2).
    assert (X0 : vx (v w) = vx (v w) * (q0 + q1 + q2)) by (rewrite PA'; ring). assert (X2 : vz (v w) = vz (v w) * (q0 + q1 + q2)) by (rewrite PA'; ring).
    split; lra. }
  split; apply expect_le; auto; intros; apply B.
Qed.

(** For points of a plane: on average the normal of the true plane has the least described
    variance, that of the errors; the one the fit reports is on average no greater. *)
Theorem C212_noise : forall svd r N p t e s2 f v n c, lapack svd -> (3 <= r)%nat -> distribution N p -> isotropic r N p e s2 ->
  (forall w, PCAOrientation svd (observed r t (e w)) None None = Ok (f w)) -> (forall w, eigenvalues (f w) = Some (v w)) ->
  unit3 n -> (forall i, (i < r)%nat -> dot n (t i) = c) ->
  expect N p (fun w => described (p_axes (f w)) (v w) n) = s2 /\
  (forall d, unit3 d -> s2 <= expect N p (fun w => described (p_axes (f w)) (v w) d)) /\
  expect N p (fun w => vz (v w)) <= s2.
Proof.
  intros svd r N p t e s2 f v n c HL R D I F V U PL.
  assert (P : 2 <= INR r - 1) by (apply (le_INR 3) in R; simpl in R; lra).
  assert (NE : exact r t <> []) by (apply observed_ne; lia). destruct (mean_exists _ NE) as (m & M).
  assert (VQ : forall d, var_along d (exact r t) = Q (centered (exact r t)) d d / (INR r - 1)).
  { intros d. rewrite (var_along_Q _ d m M); unfold exact; rewrite observed_length; auto. }
  assert (V0 : var_along n (exact r t) = 0).
  { rewrite VQ. unfold exact. rewrite observed_Q by lia.
    assert (E : forall i, (i < r)%nat -> dot n (t i) + dot n vzero = c) by (intros i H; rewrite (PL i H); unfold vzero; vunf; ring).
    rewrite (sumn_ext r _ (fun _ => c * c)) by (intros; now rewrite E). rewrite (sumn_ext r (fun i => dot n (t i) + dot n vzero) (fun _ => c)) by auto.
    rewrite !sumn_const. field. lra. }
  split; [|split].
  - rewrite (C212_average svd r N p t e s2 f v HL R D I F V n), V0. unfold unit3 in U. rewrite U. ring.
  - intros d Ud. rewrite (C212_average svd r N p t e s2 f v HL R D I F V d). unfold unit3 in Ud. rewrite Ud, VQ.
    assert (0 <= Q (centered (exact r t)) d d / (INR r - 1)). { apply Rmult_le_pos; [|left; apply Rinv_0_lt_compat; lra]. unfold Q. apply sumf_nonneg. intros; apply Rle_0_sqr. } lra.
  - pose proof (C212_extremes svd r N p t e s2 f v HL R D I F V n U) as X. rewrite V0 in X. lra.
Qed.

(** * Errors along the normal only *)
Lemma observed_pair : forall r t e d d', (0 < r)%nat -> Q (centered (observed r t e)) d d' =
  sumn r (fun i => (dot d (t i) + dot d (e i)) * (dot d' (t i) + dot d' (e i))) -
  sumn r (fun i => dot d (t i) + dot d (e i)) * sumn r (fun i => dot d' (t i) + dot d' (e i)) / INR r.
Proof.
  intros r t e d d' R. rewrite Q_raw by now apply observed_ne. rewrite !observed_sum, observed_length.
  assert (E : forall x i, dot (vadd (t i) (e i)) x = dot x (t i) + dot x (e i)) by (intros; vunf; ring).
  rewrite !(sumn_ext r (fun i => dot (vadd (t i) (e i)) _) _ (fun i _ => E _ i)).
  f_equal. apply sumn_ext. intros. now rewrite !E.
Qed.
Lemma Q_comb : forall a n u v x y, let d := vsub n (vadd (vscale x u) (vscale y v)) in
  Q a d d = Q a n n - 2 * x * Q a n u - 2 * y * Q a n v + x * x * Q a u u + 2 * x * y * Q a u v + y * y * Q a v v.
Proof.
  intros a n u v x y d. unfold Q. induction a as [|q l IH]; cbn [sumf]; [ring|]. rewrite IH.
  replace (dot q d) with (dot q n - x * dot q u - y * dot q v) by (unfold d; vunf; ring). ring.
Qed.
Lemma Q_neg_zero : forall v l d, 0 <= vy l -> vy l <= vx l -> vx l * vx l * (dot (r0 v) d * dot (r0 v) d) + vy l * vy l * (dot (r1 v) d * dot (r1 v) d) = 0 -> 0 < vy l ->
  dot (r0 v) d = 0 /\ dot (r1 v) d = 0.
Proof.
  intros v l d H0 H1 E P. set (x := dot (r0 v) d) in *. set (y := dot (r1 v) d) in *.
  assert (A : 0 <= vx l * vx l * (x * x)) by (apply Rmult_le_pos; apply Rle_0_sqr). assert (B : 0 <= vy l * vy l * (y * y)) by (apply Rmult_le_pos; apply Rle_0_sqr).
  assert (PX : 0 < vx l * vx l) by (apply Rmult_lt_0_compat; lra). assert (PY : 0 < vy l * vy l) by (apply Rmult_lt_0_compat; lra).
  split; apply Rsqr_0_uniq; unfold Rsqr.
  - assert (A0 : vx l * vx l * (x * x) = 0) by lra. apply Rmult_integral in A0. destruct A0; lra.
  - assert (B0 : vy l * vy l * (y * y) = 0) by lra. apply Rmult_integral in B0. destruct B0; lra.
Qed.

Section along.
Variables (svd : svd_fn) (r N : nat) (p : vecn) (t : nat -> vec3) (h : matn) (s2 c : R) (n : vec3) (g : pca).
Hypotheses (HL : lapack svd) (R : (3 <= r)%nat) (D : distribution N p) (H : uncorrelated r N p h s2)
  (U : unit3 n) (PL : forall i, (i < r)%nat -> dot n (t i) = c)
  (G : PCAOrientation svd (exact r t) None None = Ok g) (NC : 0 < vy (p_s g)).
Let V0 := r0 (p_axes g).
Let V1 := r1 (p_axes g).
Let obs w := observed r t (fun i => vscale (h w i) n).
Let X i := dot V0 (t i) - sumn r (fun i => dot V0 (t i)) / INR r.
Let Y i := dot V1 (t i) - sumn r (fun i => dot V1 (t i)) / INR r.
Set Default Proof Using "All".

Lemma g_svd : exists u, is_svd (centered (exact r t)) u (p_s g) (p_axes g).
Proof. destruct (fit_inv _ _ _ HL G) as (_ & u & _ & S & _). eauto. Qed.
Lemma PR : 3 <= INR r.
Proof. apply (le_INR 3) in R. simpl in R. lra. Qed.

Lemma exact_pair : forall d d', Q (centered (exact r t)) d d' =
  sumn r (fun i => dot d (t i) * dot d' (t i)) - sumn r (fun i => dot d (t i)) * sumn r (fun i => dot d' (t i)) / INR r.
Proof.
  intros d d'. unfold exact. rewrite observed_pair by lia.
  assert (Z0 : forall x i, dot x (t i) + dot x vzero = dot x (t i)) by (intros; unfold vzero; vunf; ring).
  rewrite !(sumn_ext r (fun i => dot _ (t i) + dot _ vzero) _ (fun i _ => Z0 _ i)).
  f_equal. apply sumn_ext. intros. now rewrite !Z0.
Qed.
Lemma perp : dot V0 n = 0 /\ dot V1 n = 0.
Proof.
  destruct g_svd as (u & S). pose proof (svd_s01 _ _ _ _ S). pose proof (svd_s12 _ _ _ _ S). pose proof (svd_s2 _ _ _ _ S).
  apply Q_neg_zero with (p_s g); try lra.
  assert (E : Q (centered (exact r t)) n n = 0).
  { rewrite exact_pair. rewrite (sumn_ext r _ (fun _ => c * c)) by (intros; now rewrite PL). rewrite (sumn_ext r (fun i => dot n (t i)) (fun _ => c)) by auto.
    rewrite !sumn_const. pose proof PR. field. lra. }
  rewrite (Q_svd _ _ _ _ n n S) in E.
  assert (A : forall x y, 0 <= x * x * (y * y)) by (intros; apply Rmult_le_pos; apply Rle_0_sqr).
  pose proof (A (vx (p_s g)) (dot (r0 (p_axes g)) n)). pose proof (A (vy (p_s g)) (dot (r1 (p_axes g)) n)). pose proof (A (vz (p_s g)) (dot (r2 (p_axes g)) n)). lra.
Qed.
Lemma obs_in : forall w d d', dot d n = 0 -> dot d' n = 0 -> Q (centered (obs w)) d d' = Q (centered (exact r t)) d d'.
Proof.
  intros w d d' E E'. unfold obs. rewrite observed_pair, exact_pair by lia.
  assert (Z0 : forall x i, dot x n = 0 -> dot x (t i) + dot x (vscale (h w i) n) = dot x (t i)).
  { intros x i Z. replace (dot x (vscale (h w i) n)) with (h w i * dot x n) by (vunf; ring). rewrite Z. ring. }
  rewrite (sumn_ext r (fun i => dot d (t i) + dot d (vscale (h w i) n)) (fun i => dot d (t i))) by (intros; now apply Z0).
  rewrite (sumn_ext r (fun i => dot d' (t i) + dot d' (vscale (h w i) n)) (fun i => dot d' (t i))) by (intros; now apply Z0).
  f_equal. apply sumn_ext. intros. now rewrite !Z0.
Qed.
Lemma obs_n : forall w i, (i < r)%nat -> dot n (t i) + dot n (vscale (h w i) n) = c + h w i.
Proof.
  intros w i I. rewrite (PL i I). replace (dot n (vscale (h w i) n)) with (h w i * nrm2 n) by (unfold nrm2; vunf; ring). unfold unit3 in U. rewrite U. ring.
Qed.
Lemma obs_nn : forall w, Q (centered (obs w)) n n = sumn r (fun i => h w i * h w i) - sumn r (h w) * sumn r (h w) / INR r.
Proof.
  intros w. unfold obs. rewrite observed_pair by lia. rewrite (sumn_ext r (fun i => dot n (t i) + dot n (vscale (h w i) n)) (fun i => c + h w i)) by (intros; now apply obs_n).
  rewrite (sumn_ext r _ (fun i => c * c + 2 * c * h w i + h w i * h w i)) by (intros i I; rewrite (obs_n w i I); ring).
  rewrite !sumn_plus, !sumn_scal, !sumn_const. change (fun i => h w i) with (h w). pose proof PR. field. lra.
Qed.
Lemma obs_nd : forall w d, dot d n = 0 -> Q (centered (obs w)) n d = dotn r (fun i => dot d (t i) - sumn r (fun i => dot d (t i)) / INR r) (h w).
Proof.
  intros w d E. unfold obs. rewrite observed_pair by lia.
  assert (Z0 : forall i, dot d (t i) + dot d (vscale (h w i) n) = dot d (t i)).
  { intros i. replace (dot d (vscale (h w i) n)) with (h w i * dot d n) by (vunf; ring). rewrite E. ring. }
  rewrite (sumn_ext r (fun i => dot n (t i) + dot n (vscale (h w i) n)) (fun i => c + h w i)) by (intros; now apply obs_n).
  rewrite (sumn_ext r (fun i => dot d (t i) + dot d (vscale (h w i) n)) (fun i => dot d (t i))) by auto.
  rewrite (sumn_ext r (fun i => (dot n (t i) + dot n (vscale (h w i) n)) * (dot d (t i) + dot d (vscale (h w i) n))) (fun i => c * dot d (t i) + dot d (t i) * h w i)) by (intros i I; rewrite (obs_n w i I), Z0; ring).
  unfold dotn. set (m := sumn r (fun i => dot d (t i)) / INR r).
  rewrite (sumn_ext r (fun i => (dot d (t i) - m) * h w i) (fun i => dot d (t i) * h w i - m * h w i)) by (intros; ring).
  rewrite sumn_minus, !sumn_plus, !sumn_scal, sumn_const. unfold m. pose proof PR. change (fun i => h w i) with (h w). field. lra.
Qed.
Lemma centred_sum : forall d d', let m x := sumn r (fun i => dot x (t i)) / INR r in
  dotn r (fun i => dot d (t i) - m d) (fun i => dot d' (t i) - m d') = Q (centered (exact r t)) d d'.
Proof.
  intros d d' m. rewrite exact_pair. unfold dotn.
  rewrite (sumn_ext r _ (fun i => dot d (t i) * dot d' (t i) - m d' * dot d (t i) - m d * dot d' (t i) + m d * m d')) by (intros; ring).
  rewrite sumn_plus, !sumn_minus, !sumn_scal, sumn_const. unfold m. pose proof PR. field. lra.
Qed.

(** the best plane in an outcome fits at least as well as the regression *)
Lemma least : forall w f, PCAOrientation svd (obs w) None None = Ok f ->
  vz (p_s f) * vz (p_s f) <= sumn r (fun i => h w i * h w i) - sumn r (h w) * sumn r (h w) / INR r
     - dotn r X (h w) * dotn r X (h w) / (vx (p_s g) * vx (p_s g)) - dotn r Y (h w) * dotn r Y (h w) / (vy (p_s g) * vy (p_s g)).
Proof.
  intros w f F. destruct g_svd as (u0 & S0). pose proof (svd_s01 _ _ _ _ S0). pose proof (svd_s12 _ _ _ _ S0).
  destruct (fit_inv _ _ _ HL F) as (_ & u & _ & S & _). destruct perp as (P0 & P1).
  assert (PX : 0 < vx (p_s g) * vx (p_s g)) by (apply Rmult_lt_0_compat; lra). assert (PY : 0 < vy (p_s g) * vy (p_s g)) by (apply Rmult_lt_0_compat; lra).
  set (sx := vx (p_s g) * vx (p_s g)) in *. set (sy := vy (p_s g) * vy (p_s g)) in *.
  set (x := dotn r X (h w) / sx). set (y := dotn r Y (h w) / sy). set (d := vsub n (vadd (vscale x V0) (vscale y V1))).
  pose proof (Q_comb (centered (obs w)) n V0 V1 x y) as QC. cbv zeta in QC. fold d in QC.
  rewrite obs_nn, (obs_nd w V0), (obs_nd w V1), (obs_in w V0 V0), (obs_in w V0 V1), (obs_in w V1 V1) in QC by auto.
  fold X Y in QC. destruct (Q_axes _ _ _ _ S0) as (A0 & A1 & _). fold V0 in A0. fold V1 in A1. fold sx in A0. fold sy in A1.
  assert (A01 : Q (centered (exact r t)) V0 V1 = 0).
  { rewrite (Q_svd _ _ _ _ V0 V1 S0). destruct (svd_v _ _ _ _ S0) as (o0 & o1 & o2 & o3 & o4 & o5). unfold V0, V1.
    rewrite (dot_comm (r1 (p_axes g)) (r0 (p_axes g))), o3. rewrite (dot_comm (r2 (p_axes g)) (r0 (p_axes g))), o4. ring. }
  rewrite A0, A1, A01 in QC.
  assert (ND : 1 <= nrm2 d).
  { assert (E : nrm2 d = nrm2 n - 2 * x * dot V0 n - 2 * y * dot V1 n + x * x * dot V0 V0 + 2 * x * y * dot V0 V1 + y * y * dot V1 V1) by (unfold d, nrm2; vunf; ring).
    destruct (svd_v _ _ _ _ S0) as (o0 & o1 & o2 & o3 & o4 & o5). fold V0 in o0, o3, o4. fold V1 in o1, o3, o5. unfold unit3 in U. rewrite E, P0, P1, U, o0, o1, o3.
    pose proof (Rle_0_sqr x). pose proof (Rle_0_sqr y). unfold Rsqr in *. lra. }
  assert (LW : vz (p_s f) * vz (p_s f) * nrm2 d <= Q (centered (obs w)) d d).
  { rewrite (Q_svd _ _ _ _ d d S). pose proof (svd_sq_order _ _ _ _ S) as (h0 & h1 & h2). pose proof (parseval _ d (svd_v _ _ _ _ S)) as PA. rewrite <- PA.
    pose proof (Rle_0_sqr (dot (r0 (p_axes f)) d)) as q0. pose proof (Rle_0_sqr (dot (r1 (p_axes f)) d)) as q1. unfold Rsqr in q0, q1.
    pose proof (Rmult_le_pos (vx (p_s f) * vx (p_s f) - vz (p_s f) * vz (p_s f)) _ ltac:(lra) q0). pose proof (Rmult_le_pos (vy (p_s f) * vy (p_s f) - vz (p_s f) * vz (p_s f)) _ ltac:(lra) q1). lra. }
  assert (LZ : vz (p_s f) * vz (p_s f) * 1 <= vz (p_s f) * vz (p_s f) * nrm2 d) by (apply Rmult_le_compat_l; [apply Rle_0_sqr|auto]).
  apply Rle_trans with (Q (centered (obs w)) d d); [lra|]. right. rewrite QC. unfold x, y. pose proof PR as PR3. clear - PX PY PR3. clearbody sx sy. field. repeat split; lra.
Qed.

Lemma expect_least : expect N p (fun w => sumn r (fun i => h w i * h w i) - sumn r (h w) * sumn r (h w) / INR r
     - dotn r X (h w) * dotn r X (h w) / (vx (p_s g) * vx (p_s g)) - dotn r Y (h w) * dotn r Y (h w) / (vy (p_s g) * vy (p_s g))) = (INR r - 3) * s2.
Proof.
  destruct g_svd as (u0 & S0). pose proof (svd_s01 _ _ _ _ S0). pose proof PR.
  destruct (Q_axes _ _ _ _ S0) as (A0 & A1 & _). fold V0 in A0. fold V1 in A1.
  assert (C0 : dotn r X X = vx (p_s g) * vx (p_s g)) by (rewrite <- A0; exact (centred_sum V0 V0)).
  assert (C1 : dotn r Y Y = vy (p_s g) * vy (p_s g)) by (rewrite <- A1; exact (centred_sum V1 V1)).
  set (one := fun _ : nat => 1).
  rewrite (expect_ext N p _ (fun w => sumn r (fun i => h w i * h w i) + ((-1 / INR r) * (dotn r one (h w) * dotn r one (h w)) +
    ((-1 / (vx (p_s g) * vx (p_s g))) * (dotn r X (h w) * dotn r X (h w)) + (-1 / (vy (p_s g) * vy (p_s g))) * (dotn r Y (h w) * dotn r Y (h w)))))).
  2:{ intros w. assert (SO : sumn r (h w) = dotn r one (h w)) by (unfold dotn, one; apply sumn_ext; intros; ring). rewrite SO. generalize (dotn r one (h w)) as q1, (dotn r X (h w)) as q2, (dotn r Y (h w)) as q3. intros. field. repeat split; lra. }
  rewrite !expect_plus, !expect_scal, !(expect_product r N p h s2 H), (expect_sum N p r (fun w i => h w i * h w i)), C0, C1.
  rewrite (sumn_ext r (fun i => expect N p (fun w => h w i * h w i)) (fun _ => s2)).
  2:{ intros i I. pose proof (H i i I I) as UU. rewrite Nat.eqb_refl in UU. exact UU. }
  unfold dotn, one. rewrite !sumn_const. field. lra.
Qed.
End along.
Unset Default Proof Using.

(** With errors along the normal only, of variance s2, the eigenvalue that is taken for
    the noise is on average at most (n - 3)/(n - 1) of it. *)
Theorem C212_along : forall svd r N p t h s2 n c g f v, lapack svd -> (3 <= r)%nat -> distribution N p -> uncorrelated r N p h s2 ->
  unit3 n -> (forall i, (i < r)%nat -> dot n (t i) = c) ->
  PCAOrientation svd (exact r t) None None = Ok g -> 0 < vy (p_s g) ->
  (forall w, PCAOrientation svd (observed r t (fun i => vscale (h w i) n)) None None = Ok (f w)) -> (forall w, eigenvalues (f w) = Some (v w)) ->
  expect N p (fun w => vz (v w)) <= (INR r - 3) / (INR r - 1) * s2.
Proof.
  intros svd r N p t h s2 n c g f v HL R D H U PL G NC F V.
  assert (P : 2 <= INR r - 1) by (apply (le_INR 3) in R; simpl in R; lra).
  pose proof (expect_least svd r N p t h s2 c n g HL R D H U PL G NC) as E.
  replace ((INR r - 3) / (INR r - 1) * s2) with (/ (INR r - 1) * ((INR r - 3) * s2)) by (field; lra). rewrite <- E, <- expect_scal.
  apply expect_le; auto. intros w W. destruct (eigenvalues_value _ _ _ _ HL (F w) (V w)) as (_ & _ & EZ). rewrite observed_length in EZ. rewrite EZ.
  unfold Rdiv at 1. rewrite Rmult_comm. apply Rmult_le_compat_l; [left; apply Rinv_0_lt_compat; lra|].
  exact (least svd r N p t h s2 c n g HL R D H U PL G NC w (f w) (F w)).
Qed.

(** Four points of a plane; in each of 24 equally likely outcomes one of them is off by
    one unit along one of the coordinate axes. *)
Definition four (i : nat) : vec3 := nth i [V3 1 0 0; V3 (-1) 0 0; V3 0 1 0; V3 0 (-1) 0] vzero.
Definition one_point (w i : nat) : vec3 :=
  if (w / 6 =? i)%nat then nth (w mod 6) [V3 1 0 0; V3 (-1) 0 0; V3 0 1 0; V3 0 (-1) 0; V3 0 0 1; V3 0 0 (-1)] vzero else vzero.
Example C212_ex : distribution 24 (fun _ => 1/24) /\ isotropic 4 24 (fun _ => 1/24) one_point (1/12) /\
  unit3 (V3 0 0 1) /\ (forall i, (i < 4)%nat -> dot (V3 0 0 1) (four i) = 0) /\
  distribution 8 (fun _ => 1/8) /\ uncorrelated 4 8 (fun _ => 1/8) (one_off 4) (1/4) /\
  exists g, PCAOrientation svd_ref (exact 4 four) None None = Ok g /\ 0 < vy (p_s g).
Proof.
  destruct C206_ex as (D8 & _ & U8 & _).
  split. { split; [intros; lra|]. cbn [sumn]. lra. }
  split.
  { intros d. split.
    - intros i I. unfold expect, dot. destruct i as [|[|[|[|i]]]]; try lia; cbn; lra.
    - intros i j I J. unfold expect, nrm2, dot. destruct i as [|[|[|[|i]]]], j as [|[|[|[|j]]]]; try lia; cbn; field. }
  split. { unfold unit3. vunf. ring. }
  split. { intros i I. destruct i as [|[|[|[|i]]]]; try lia; cbn; vunf; ring. }
  split; [exact D8|]. split; [exact U8|].
  destruct (fit_exists svd_ref (exact 4 four) lapack_ref) as (g & G). { unfold exact. rewrite observed_length. lia. }
  exists g. split; auto. destruct (fit_inv _ _ _ lapack_ref G) as (_ & u & m & S & _).
  pose proof (svd_s01 _ _ _ _ S) as O1. pose proof (svd_s12 _ _ _ _ S) as O2. pose proof (svd_s2 _ _ _ _ S) as O3.
  destruct (Req_EM_T (vy (p_s g)) 0) as [Z|]; [exfalso|lra].
  assert (Z2 : vz (p_s g) = 0) by lra.
  (* the scatter would have rank one *)
  assert (QQ : forall d, Q (centered (exact 4 four)) d d = 2 * (vx d * vx d + vy d * vy d)).
  { intros d. unfold exact. rewrite observed_Q by lia. cbn [sumn four nth]. unfold dot, vzero. cbn [vx vy vz]. simpl INR. field. }
  set (a := r0 (p_axes g)) in *. set (d := V3 (vy a) (- vx a) 0).
  pose proof (QQ d) as E. rewrite (Q_svd _ _ _ _ d d S), Z, Z2 in E. fold a in E.
  assert (A0 : dot a d = 0) by (unfold d; vunf; ring). rewrite A0 in E. unfold d in E. cbn [vx vy vz] in E.
  assert (AX : vx a = 0 /\ vy a = 0) by (split; nra). destruct AX as (AX & AY).
  pose proof (QQ (V3 1 0 0)) as E'. rewrite (Q_svd _ _ _ _ _ _ S), Z, Z2 in E'. fold a in E'. unfold dot in E'; cbn [vx vy vz] in E'. rewrite AX in E'. lra.
Qed.

Print Assumptions C212_average.
Print Assumptions C212_extremes.
Print Assumptions C212_noise.
Print Assumptions C212_along.
