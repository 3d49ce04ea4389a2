(** Perturbation of singular values and of the third axis. *)
From Coq Require Import Reals Lra Lia List Psatz Permutation Arith.
From Verif Require Import RVec Trig SpecPlane SpecStable MPca LSvd LPca.
Import ListNotations.
Open Scope R_scope.

Lemma cauchy_sum : forall A (f g : A -> R) l,
  sumf (fun a => f a * g a) l * sumf (fun a => f a * g a) l <=
  sumf (fun a => f a * f a) l * sumf (fun a => g a * g a) l.
Proof.
  induction l as [|x l IH]; simpl; [lra|].
  set (p := sumf (fun a => f a * g a) l) in *. set (q := sumf (fun a => f a * f a) l) in *. set (r := sumf (fun a => g a * g a) l) in *.
  assert (Q0 : 0 <= q) by (apply sumf_nonneg; intros; apply Rle_0_sqr).
  assert (R0 : 0 <= r) by (apply sumf_nonneg; intros; apply Rle_0_sqr).
  clearbody p q r. set (a := f x). set (b := g x). clearbody a b.
  cut (2 * a * b * p <= a * a * r + b * b * q). { nra. }
  assert (X : (a * b * p) * (a * b * p) <= (a * a * r) * (b * b * q)).
  { replace (a * b * p * (a * b * p)) with ((a * b) * (a * b) * (p * p)) by ring.
    replace (a * a * r * (b * b * q)) with ((a * b) * (a * b) * (q * r)) by ring.
    apply Rmult_le_compat_l; [apply Rle_0_sqr|auto]. }
  assert (X0 : 0 <= a * a * r) by (apply Rmult_le_pos; [apply Rle_0_sqr|auto]).
  assert (Y0 : 0 <= b * b * q) by (apply Rmult_le_pos; [apply Rle_0_sqr|auto]).
  replace (2 * a * b * p) with (2 * (a * b * p)) by ring.
  set (X1 := a * a * r) in *. set (Y1 := b * b * q) in *. set (Z1 := a * b * p) in *. clearbody X1 Y1 Z1.
  destruct (Rle_dec Z1 0); [lra|].
  apply Rsqr_incr_0_var; [|lra]. unfold Rsqr. pose proof (Rle_0_sqr (X1 - Y1)) as SQ. unfold Rsqr in SQ. lra.
Qed.
Lemma cauchy_abs : forall A (f g : A -> R) l x y, 0 <= x -> 0 <= y ->
  sumf (fun a => f a * f a) l <= x * x -> sumf (fun a => g a * g a) l <= y * y ->
  Rabs (sumf (fun a => f a * g a) l) <= x * y.
Proof.
  intros A f g l x y X Y FX GY. pose proof (cauchy_sum A f g l) as C.
  assert (Q0 : 0 <= sumf (fun a => f a * f a) l) by (apply sumf_nonneg; intros; apply Rle_0_sqr).
  assert (R0 : 0 <= sumf (fun a => g a * g a) l) by (apply sumf_nonneg; intros; apply Rle_0_sqr).
  apply Rsqr_incr_0_var; [|apply Rmult_le_pos; auto]. rewrite <- Rsqr_abs. unfold Rsqr.
  replace (x * y * (x * y)) with ((x * x) * (y * y)) by ring.
  eapply Rle_trans; [exact C|]. apply Rmult_le_compat; auto.
Qed.
Lemma dot_cauchy : forall a b, dot a b * dot a b <= nrm2 a * nrm2 b.
Proof.
  intros [x y z] [x' y' z']; vunf.
  assert (0 <= (x * y' - y * x') * (x * y' - y * x')) by apply Rle_0_sqr.
  assert (0 <= (x * z' - z * x') * (x * z' - z * x')) by apply Rle_0_sqr.
  assert (0 <= (y * z' - z * y') * (y * z' - z * y')) by apply Rle_0_sqr. nra.
Qed.

Section Pairs.
Variable L : list (vec3 * vec3).
Variable e : R.
Hypothesis E0 : 0 <= e.
Hypothesis EB : sumf (fun '(p, q) => nrm2 (vsub q p)) L <= e * e.
Let a := map fst L.
Let b := map snd L.
Lemma Q_fst : forall d f, Q a d f = sumf (fun pq => dot (fst pq) d * dot (fst pq) f) L.
Proof. intros. unfold Q, a. now rewrite sumf_map. Qed.
Lemma Q_snd : forall d f, Q b d f = sumf (fun pq => dot (snd pq) d * dot (snd pq) f) L.
Proof. intros. unfold Q, b. now rewrite sumf_map. Qed.
Lemma err_along : forall d, nrm2 d = 1 ->
  sumf (fun pq => dot (vsub (snd pq) (fst pq)) d * dot (vsub (snd pq) (fst pq)) d) L <= e * e.
Proof.
  intros d D. eapply Rle_trans; [|exact EB]. apply sumf_le. intros [p q] _. simpl.
  pose proof (dot_cauchy (vsub q p) d). rewrite D in H. lra.
Qed.
(** the length of the image of a direction changes by at most e *)
Lemma image_le : forall d x, nrm2 d = 1 -> 0 <= x -> Q a d d <= x * x -> Q b d d <= (x + e) * (x + e).
Proof.
  intros d x D X H. rewrite Q_snd. rewrite Q_fst in H.
  rewrite (sumf_ext _ _ (fun pq => dot (fst pq) d * dot (fst pq) d +
    2 * (dot (fst pq) d * dot (vsub (snd pq) (fst pq)) d) + dot (vsub (snd pq) (fst pq)) d * dot (vsub (snd pq) (fst pq)) d)).
  2:{ intros [p q] _. simpl. rewrite dot_sub_l. ring. }
  rewrite !sumf_plus, sumf_scal.
  pose proof (err_along d D) as ED.
  pose proof (cauchy_abs _ (fun pq => dot (fst pq) d) (fun pq => dot (vsub (snd pq) (fst pq)) d) L x e X E0 H ED) as C.
  pose proof (Rle_abs (sumf (fun pq => dot (fst pq) d * dot (vsub (snd pq) (fst pq)) d) L)) as C2.
  replace ((x + e) * (x + e)) with (x * x + 2 * (x * e) + e * e) by ring.
  apply Rplus_le_compat; [|exact ED]. apply Rplus_le_compat; [exact H|]. lra.
Qed.
Lemma sq_le : forall x y, 0 <= y -> x * x <= y * y -> x <= y.
Proof. intros x y Y H. apply Rsqr_incr_0_var; auto. Qed.

Variables (u u' : list vec3) (s s' : vec3) (v v' : mat3).
Hypothesis S : is_svd a u s v.
Hypothesis S' : is_svd b u' s' v'.
Lemma weyl : vx s' <= vx s + e /\ vy s' <= vy s + e /\ vz s' <= vz s + e.
Proof.
  destruct (svd_v _ _ _ _ S) as (o0 & o1 & o2 & o01 & o02 & o12).
  destruct (svd_v _ _ _ _ S') as (p0 & p1 & p2 & p01 & p02 & p12).
  destruct (Q_axes _ _ _ _ S) as (A0 & A1 & A2). destruct (Q_axes _ _ _ _ S') as (B0 & B1 & B2).
  pose proof (svd_s01 _ _ _ _ S). pose proof (svd_s12 _ _ _ _ S). pose proof (svd_s2 _ _ _ _ S).
  pose proof (svd_s01 _ _ _ _ S'). pose proof (svd_s12 _ _ _ _ S'). pose proof (svd_s2 _ _ _ _ S').
  split; [|split].
  - apply sq_le; [lra|]. rewrite <- B0. apply image_le; [exact p0|lra|].
    apply (Q_upper _ _ _ _ _ S). exact p0.
  - destruct (perp2 (r0 v) (r2 v')) as (w & W & W0 & W2). destruct (unitize w W) as (d & D & k & K & DK).
    assert (D0 : dot (r0 v) d = 0) by (rewrite DK, dot_scale_r, dot_comm, W0; ring).
    assert (D2 : dot (r2 v') d = 0) by (rewrite DK, dot_scale_r, dot_comm, W2; ring).
    assert (UP : Q a d d <= vy s * vy s).
    { rewrite (Q_svd _ _ _ _ d d S), D0. pose proof (parseval v d (svd_v _ _ _ _ S)) as P. rewrite D, D0 in P.
      assert (vz s * vz s <= vy s * vy s) by nra. nra. }
    assert (LO : vy s' * vy s' <= Q b d d).
    { rewrite (Q_svd _ _ _ _ d d S'), D2. pose proof (parseval v' d (svd_v _ _ _ _ S')) as P. rewrite D, D2 in P.
      assert (vy s' * vy s' <= vx s' * vx s') by nra. nra. }
    apply sq_le; [lra|]. eapply Rle_trans; [exact LO|]. apply image_le; auto. lra.
  - apply sq_le; [lra|]. eapply Rle_trans; [apply (Q_lower _ _ _ _ (r2 v) S'); exact o2|].
    apply image_le; auto. rewrite A2. lra.
Qed.

(** components of the new third axis along the old first two *)
Lemma tilt : forall i x, (i = r0 v /\ x = vx s) \/ (i = r1 v /\ x = vy s) -> vz s' < x ->
  Rabs (dot i (r2 v')) * (x - vz s') <= e.
Proof.
  intros i x IX GT.
  destruct (svd_v _ _ _ _ S) as (o0 & o1 & o2 & o01 & o02 & o12).
  destruct (svd_v _ _ _ _ S') as (p0 & p1 & p2 & p01 & p02 & p12).
  destruct (Q_axes _ _ _ _ S) as (A0 & A1 & A2). destruct (Q_axes _ _ _ _ S') as (B0 & B1 & B2).
  pose proof (svd_s01 _ _ _ _ S). pose proof (svd_s12 _ _ _ _ S). pose proof (svd_s2 _ _ _ _ S). pose proof (svd_s2 _ _ _ _ S').
  set (y := r2 v') in *.
  assert (QA : Q a i y = x * x * dot i y).
  { rewrite (Q_svd _ _ _ _ i y S). destruct IX as [(-> & ->)|(-> & ->)].
    - rewrite o0, (dot_comm (r1 v) (r0 v)), (dot_comm (r2 v) (r0 v)), o01, o02. ring.
    - rewrite o01, o1, (dot_comm (r2 v) (r1 v)), o12. ring. }
  assert (QI : Q a i i = x * x) by (destruct IX as [(-> & ->)|(-> & ->)]; auto).
  assert (NI : nrm2 i = 1) by (destruct IX as [(-> & ->)|(-> & ->)]; auto).
  assert (QB : Q b i y = vz s' * vz s' * dot i y).
  { rewrite (Q_svd _ _ _ _ i y S'). fold y. rewrite p02, p12, p2. rewrite (dot_comm y i). ring. }
  assert (DF : Q b i y - Q a i y =
    sumf (fun pq => dot (fst pq) i * dot (vsub (snd pq) (fst pq)) y) L +
    sumf (fun pq => dot (vsub (snd pq) (fst pq)) i * dot (snd pq) y) L).
  { rewrite Q_snd, Q_fst, <- sumf_minus, <- sumf_plus. apply sumf_ext. intros [p q] _. simpl. rewrite !dot_sub_l. ring. }
  pose proof (cauchy_abs _ (fun pq => dot (fst pq) i) (fun pq => dot (vsub (snd pq) (fst pq)) y) L x e ltac:(lra) E0
     ltac:(rewrite Q_fst in QI; apply Req_le; exact QI) (err_along y p2)) as C1.
  pose proof (cauchy_abs _ (fun pq => dot (vsub (snd pq) (fst pq)) i) (fun pq => dot (snd pq) y) L e (vz s') E0 ltac:(lra)
     (err_along i NI) ltac:(rewrite Q_snd in B2; apply Req_le; exact B2)) as C2.
  rewrite QA, QB in DF.
  set (t1 := sumf _ L) in C1, DF. set (t2 := sumf (fun pq => dot (vsub (snd pq) (fst pq)) i * dot (snd pq) y) L) in *.
  assert (T : Rabs (t1 + t2) <= (x + vz s') * e).
  { eapply Rle_trans; [apply Rabs_triang|]. lra. }
  rewrite <- DF in T. replace (vz s' * vz s' * dot i y - x * x * dot i y) with (- ((x + vz s') * ((x - vz s') * dot i y))) in T by ring.
  rewrite Rabs_Ropp, Rabs_mult, (Rabs_right (x + vz s')) in T by lra.
  apply Rmult_le_reg_l in T; [|lra]. rewrite Rabs_mult, (Rabs_right (x - vz s')) in T by lra. lra.
Qed.
Lemma tilt_normal : vz s + e < vy s ->
  norm (cross (r2 v) (r2 v')) * (vy s - vz s - e) <= sqrt 2 * e.
Proof.
  intros GAP. destruct weyl as (_ & _ & W).
  pose proof (svd_s01 _ _ _ _ S).
  pose proof (tilt (r0 v) (vx s) ltac:(auto) ltac:(lra)) as T0.
  pose proof (tilt (r1 v) (vy s) ltac:(auto) ltac:(lra)) as T1.
  set (g := vy s - vz s - e) in *. assert (G : 0 < g) by (unfold g; lra).
  assert (U0 : Rabs (dot (r0 v) (r2 v')) * g <= e).
  { eapply Rle_trans; [|exact T0]. apply Rmult_le_compat_l; [apply Rabs_pos|unfold g; lra]. }
  assert (U1 : Rabs (dot (r1 v) (r2 v')) * g <= e).
  { eapply Rle_trans; [|exact T1]. apply Rmult_le_compat_l; [apply Rabs_pos|unfold g; lra]. }
  pose proof (parseval v (r2 v') (svd_v _ _ _ _ S)) as P.
  destruct (svd_v _ _ _ _ S) as (o0 & o1 & o2 & o01 & o02 & o12).
  destruct (svd_v _ _ _ _ S') as (p0 & p1 & p2 & p01 & p02 & p12).
  assert (CN : nrm2 (cross (r2 v) (r2 v')) = nrm2 (r2 v) * nrm2 (r2 v') - dot (r2 v) (r2 v') * dot (r2 v) (r2 v')) by (vunf; ring).
  unfold nrm2 in CN at 2 3. rewrite o2, p2 in CN. unfold nrm2 in P at 1. 
  assert (SQ : sqrt 2 * sqrt 2 = 2) by (apply sqrt_sqrt; lra). pose proof (sqrt_pos 2).
  apply sq_le; [nra|].
  replace (norm (cross (r2 v) (r2 v')) * g * (norm (cross (r2 v) (r2 v')) * g)) with
    (norm (cross (r2 v) (r2 v')) * norm (cross (r2 v) (r2 v')) * (g * g)) by ring.
  rewrite norm_sqr, CN.
  replace (sqrt 2 * e * (sqrt 2 * e)) with (e * e + e * e) by (transitivity (sqrt 2 * sqrt 2 * (e * e)); [rewrite SQ; ring|ring]).
  assert (PP : 1 * 1 - dot (r2 v) (r2 v') * dot (r2 v) (r2 v') =
    Rabs (dot (r0 v) (r2 v')) * Rabs (dot (r0 v) (r2 v')) + Rabs (dot (r1 v) (r2 v')) * Rabs (dot (r1 v) (r2 v'))).
  { rewrite <- !Rabs_mult, !Rabs_right by apply Rle_ge, Rle_0_sqr. unfold nrm2 in P. rewrite p2 in P. lra. }
  rewrite PP.
  pose proof (Rabs_pos (dot (r0 v) (r2 v'))). pose proof (Rabs_pos (dot (r1 v) (r2 v'))).
  set (x := Rabs (dot (r0 v) (r2 v'))) in *. set (z := Rabs (dot (r1 v) (r2 v'))) in *. clearbody x z g.
  replace ((x * x + z * z) * (g * g)) with ((x * g) * (x * g) + (z * g) * (z * g)) by ring.
  apply Rplus_le_compat; apply Rmult_le_compat; auto; apply Rmult_le_pos; lra.
Qed.
End Pairs.

Lemma combine_fst : forall A B (a : list A) (b : list B), length a = length b -> map fst (combine a b) = a.
Proof. induction a; destruct b; simpl; intros; try discriminate; auto. f_equal; auto. Qed.
Lemma combine_snd : forall A B (a : list A) (b : list B), length a = length b -> map snd (combine a b) = b.
Proof. induction a; destruct b; simpl; intros; try discriminate; auto. f_equal; auto. Qed.
Lemma near_sym : forall e a b, near e a b -> near e b a.
Proof.
  intros e a b (E & LN & N). split; auto. split; auto. eapply Rle_trans; [|exact N]. apply Req_le.
  clear N E. revert b LN. induction a; destruct b; simpl; intros; try discriminate; auto.
  rewrite IHa by auto. f_equal. vunf. ring.
Qed.
Lemma near_trans : forall e f a b c, near e a b -> near f b c -> near (e + f) a c.
Proof.
  intros e f a b c (E & LN & N) (F & LN' & N'). split; [lra|]. split; [congruence|].
  set (L := combine (combine a b) c).
  assert (L1 : sumf (fun '(p, q) => nrm2 (vsub q p)) (combine a b) = sumf (fun '(p, q, r) => nrm2 (vsub q p)) L).
  { unfold L. clear -LN LN'. revert b c LN LN'. induction a; destruct b, c; simpl; intros; try discriminate; auto.
    rewrite (IHa b c) by auto. reflexivity. }
  assert (L2 : sumf (fun '(p, q) => nrm2 (vsub q p)) (combine b c) = sumf (fun '(p, q, r) => nrm2 (vsub r q)) L).
  { unfold L. clear -LN LN'. revert b c LN LN'. induction a; destruct b, c; simpl; intros; try discriminate; auto.
    rewrite (IHa b c) by auto. reflexivity. }
  assert (L3 : sumf (fun '(p, q) => nrm2 (vsub q p)) (combine a c) = sumf (fun '(p, q, r) => nrm2 (vsub r p)) L).
  { unfold L. clear -LN LN'. revert b c LN LN'. induction a; destruct b, c; simpl; intros; try discriminate; auto.
    rewrite (IHa b c) by auto. reflexivity. }
  rewrite L1 in N. rewrite L2 in N'. rewrite L3. clearbody L.
  set (nx := fun '((p, q, r) : vec3 * vec3 * vec3) => norm (vsub q p)). set (ny := fun '((p, q, r) : vec3 * vec3 * vec3) => norm (vsub r q)).
  assert (NX : sumf (fun t => nx t * nx t) L <= e * e).
  { eapply Rle_trans; [|exact N]. apply Req_le, sumf_ext. intros [[p q] r] _. simpl. apply norm_sqr. }
  assert (NY : sumf (fun t => ny t * ny t) L <= f * f).
  { eapply Rle_trans; [|exact N']. apply Req_le, sumf_ext. intros [[p q] r] _. simpl. apply norm_sqr. }
  pose proof (cauchy_abs _ nx ny L e f E F NX NY) as C. pose proof (Rle_abs (sumf (fun t => nx t * ny t) L)).
  eapply Rle_trans; [apply (sumf_le _ _ (fun t => nx t * nx t + 2 * (nx t * ny t) + ny t * ny t))|].
  - intros [[p q] r] _. simpl.
    rewrite !norm_sqr. 
    assert (X : dot (vsub q p) (vsub r q) <= norm (vsub q p) * norm (vsub r q)).
    { eapply Rle_trans; [apply Rle_abs|]. apply Rsqr_incr_0_var; [|apply Rmult_le_pos; apply norm_nonneg].
      rewrite <- Rsqr_abs. unfold Rsqr. eapply Rle_trans; [apply dot_cauchy|].
      rewrite <- !norm_sqr. apply Req_le; ring. }
    replace (nrm2 (vsub r p)) with (nrm2 (vsub q p) + 2 * dot (vsub q p) (vsub r q) + nrm2 (vsub r q)) by (vunf; ring).
    lra.
  - rewrite !sumf_plus, sumf_scal. lra.
Qed.
