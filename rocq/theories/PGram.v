(** C215: two helpers of the PCA module. *)
From Coq Require Import Reals Lra Lia List Arith.
From Verif Require Import RVec Trig SpecPlane MPca LSvd LPca LFit LFit2 LExamples PPca MGram.
Import ListNotations.
Open Scope R_scope.

Lemma vm_dot : forall V a b, orthonormal V -> dot (vm a V) (vm b V) = dot a b.
Proof.
  intros V a b (O0 & O1 & O2 & P0 & P1 & P2). unfold unit3, nrm2 in *.
  assert (E : dot (vm a V) (vm b V) =
    vx a * vx b * dot (r0 V) (r0 V) + vy a * vy b * dot (r1 V) (r1 V) + vz a * vz b * dot (r2 V) (r2 V) +
    (vx a * vy b + vy a * vx b) * dot (r0 V) (r1 V) + (vx a * vz b + vz a * vx b) * dot (r0 V) (r2 V) + (vy a * vz b + vz a * vy b) * dot (r1 V) (r2 V)).
  { vunf. ring. }
  rewrite E, O0, O1, O2, P0, P1, P2. vunf. ring.
Qed.
Lemma sumf_dot : forall p l, sumf (dot p) l = dot p (vsum l).
Proof. intros p l. induction l as [|q l IH]; cbn [sumf]; [unfold vsum; vunf; cbn; ring|]. rewrite IH. unfold vsum. vunf. cbn [sumf]. ring. Qed.
Lemma centered_sum : forall arr, arr <> [] -> vsum (centered arr) = vzero.
Proof.
  intros arr NE. destruct (mean_exists arr NE) as (m & M). rewrite (centered_mean m) by auto. destruct M as (_ & M).
  assert (E : vsum (map (fun p => vsub p m) arr) = vsub (vsum arr) (vscale (INR (length arr)) m)).
  { clear. induction arr as [|q l IH]; [unfold vsum; cbn; apply vec3_eq; vunf; ring|]. cbn [map List.length]. rewrite S_INR.
    unfold vsum in *. cbn [sumf]. injection IH as E0 E1 E2. rewrite E0, E1, E2. apply vec3_eq; vunf; ring. }
  rewrite E, M. apply vec3_eq; vunf; ring.
Qed.
Lemma gram_value : forall svd arr f, lapack svd -> PCAOrientation svd arr None None = Ok f ->
  covariance_matrix f = Some (map (fun p => map (dot p) (centered arr)) (centered arr)).
Proof.
  intros svd arr f HL HF. destruct (fit_inv _ _ _ HL HF) as (_ & u & m & S & _ & EU & _).
  unfold covariance_matrix, U. rewrite EU. f_equal. rewrite (svd_fact _ _ _ _ S), !map_map. apply map_ext. intros a.
  rewrite !map_map. apply map_ext. intros b. symmetry. apply vm_dot. exact (svd_v _ _ _ _ S).
Qed.

(** The matrix is as large as the data, with the products of the centred points: its rows
    sum to zero and its trace is the sum of squared singular values. *)
Theorem C215_products : forall svd arr f, lapack svd -> PCAOrientation svd arr None None = Ok f ->
  exists G, covariance_matrix f = Some G /\ length G = length arr /\
    (forall row, In row G -> length row = length arr /\ sumf (fun x => x) row = 0) /\
    (forall m i j p q, is_mean m arr -> nth_error arr i = Some p -> nth_error arr j = Some q ->
       exists row, nth_error G i = Some row /\ nth_error row j = Some (dot (vsub p m) (vsub q m))) /\
    sumf (fun i => nth i (nth i G []) 0) (seq 0 (length arr)) = vx (p_s f) * vx (p_s f) + vy (p_s f) * vy (p_s f) + vz (p_s f) * vz (p_s f).
Proof.
  intros svd arr f HL HF. destruct (fit_inv _ _ _ HL HF) as (N3 & u & m & S & M & _).
  assert (NE : arr <> []) by (destruct arr; [simpl in N3; lia|discriminate]).
  set (c := centered arr). exists (map (fun p => map (dot p) c) c).
  split; [apply gram_value with svd; auto|]. split; [rewrite map_length; apply centered_length|]. split; [|split].
  - intros row I. apply in_map_iff in I. destruct I as (p & <- & _). split; [rewrite map_length; apply centered_length|].
    rewrite sumf_map, sumf_dot. unfold c. rewrite centered_sum by auto. unfold vzero. vunf. ring.
  - intros m' i j p q M' I J. assert (C : c = map (fun p => vsub p m') arr) by (apply centered_mean; auto). rewrite C.
    exists (map (dot (vsub p m')) (map (fun p => vsub p m') arr)). split.
    + rewrite map_map. exact (map_nth_error (fun x => map (dot (vsub x m')) (map (fun p => vsub p m') arr)) i arr I).
    + rewrite map_map. exact (map_nth_error (fun x => dot (vsub p m') (vsub x m')) j arr J).
  - assert (T : sumf (fun i => nth i (nth i (map (fun p => map (dot p) c) c) []) 0) (seq 0 (length arr)) = sumf (fun p => dot p p) c).
    { rewrite <- (centered_length arr). fold c. 
      assert (G : forall i, (i < length c)%nat -> nth i (nth i (map (fun p => map (dot p) c) c) []) 0 = dot (nth i c vzero) (nth i c vzero)).
      { intros i I. rewrite (nth_indep _ [] (map (dot vzero) c)) by (rewrite map_length; auto).
        rewrite (map_nth (fun p => map (dot p) c)). rewrite (nth_indep _ 0 (dot (nth i c vzero) vzero)) by (rewrite map_length; auto).
        apply (map_nth (dot (nth i c vzero))). }
      assert (G' : sumf (fun i => nth i (nth i (map (fun p => map (dot p) c) c) []) 0) (seq 0 (length c)) = sumf (fun i => dot (nth i c vzero) (nth i c vzero)) (seq 0 (length c))) by (apply sumf_ext; intros i I; apply in_seq in I; apply G; lia).
      rewrite G'.
      clear. induction c as [|p l IH]; [reflexivity|]. cbn [List.length seq sumf]. rewrite <- seq_shift, sumf_map. cbn [nth]. now rewrite IH. }
    rewrite T. unfold c.
    assert (E : sumf (fun p => dot p p) (centered arr) = Q (centered arr) (V3 1 0 0) (V3 1 0 0) + Q (centered arr) (V3 0 1 0) (V3 0 1 0) + Q (centered arr) (V3 0 0 1) (V3 0 0 1)).
    { unfold Q. generalize (centered arr). intros l. induction l as [|p l IH]; cbn [sumf]; [ring|]. rewrite IH. vunf. ring. }
    rewrite E, !(Q_svd _ _ _ _ _ _ S). destruct (svd_v _ _ _ _ S) as (O0 & O1 & O2 & _). unfold unit3, nrm2 in *. vunf.
    destruct (p_axes f) as [[a0 a1 a2] [b0 b1 b2] [c0 c1 c2]]. cbn [r0 r1 r2 vx vy vz] in *.
    replace (vx (p_s f) * vx (p_s f) + vy (p_s f) * vy (p_s f) + vz (p_s f) * vz (p_s f)) with
      (vx (p_s f) * vx (p_s f) * (a0 * a0 + a1 * a1 + a2 * a2) + vy (p_s f) * vy (p_s f) * (b0 * b0 + b1 * b1 + b2 * b2) + vz (p_s f) * vz (p_s f) * (c0 * c0 + c1 * c1 + c2 * c2)).
    + ring.
    + unfold dot in O0, O1, O2. cbn [vx vy vz] in *. rewrite O0, O1, O2. ring.
Qed.

(** It is the same for the data turned and moved in any way, fitted by any routine, and so
    says nothing about the orientation of the plane. *)
Theorem C215_turned : forall svd svd' arr m t f g, lapack svd -> lapack svd' -> orthonormal m ->
  PCAOrientation svd arr None None = Ok f -> PCAOrientation svd' (map (fun p => vadd t (mv m p)) arr) None None = Ok g ->
  covariance_matrix g = covariance_matrix f.
Proof.
  intros svd svd' arr m t f g HL HL' O F G. rewrite (gram_value _ _ _ HL F), (gram_value _ _ _ HL' G).
  assert (C : centered (map (fun p => vadd t (mv m p)) arr) = map (mv m) (centered arr)).
  { rewrite <- (map_map (mv m) (vadd t)), centered_shift. apply centered_mv. }
  rewrite C, !map_map. f_equal. apply map_ext. intros a. rewrite map_map. apply map_ext. intros b. now apply dot_mv_mv.
Qed.

(** what lstsq is asked for *)
Definition frob2 (A : mat3) : R := nrm2 (r0 A) + nrm2 (r1 A) + nrm2 (r2 A).
Definition msub (A B : mat3) : mat3 := M3 (vsub (r0 A) (r0 B)) (vsub (r1 A) (r1 B)) (vsub (r2 A) (r2 B)).
Definition least_squares (lstsq : mat3 -> mat3 -> mat3) : Prop :=
  forall A B X, frob2 (msub (mm A (lstsq A B)) B) <= frob2 (msub (mm A X) B).

(** axis_transform gives back the axes, which take coordinates along them to the data. *)
Theorem C215_axis_transform : forall lstsq, least_squares lstsq ->
  (forall A, axis_transform lstsq A = A) /\
  (forall svd arr f, lapack svd -> PCAOrientation svd arr None None = Ok f ->
     map (fun q => vm q (axis_transform lstsq (p_axes f))) (rotated f) = p_arr f).
Proof.
  intros lstsq L. assert (E : forall A, axis_transform lstsq A = A).
  { intros A. unfold axis_transform. set (X := lstsq (mdiag ones) A). pose proof (L (mdiag ones) A A) as H. fold X in H.
    assert (I : forall B, mm (mdiag ones) B = B) by (intros [[x0 x1 x2] [y0 y1 y2] [z0 z1 z2]]; unfold mm, mdiag, ones, vm; f_equal; apply vec3_eq; vunf; cbn [r0 r1 r2 vx vy vz]; ring).
    rewrite !I in H.
    assert (Z : frob2 (msub A A) = 0) by (destruct A as [[x0 x1 x2] [y0 y1 y2] [z0 z1 z2]]; unfold frob2, msub, nrm2; vunf; cbn; ring).
    rewrite Z in H. destruct X as [[a0 a1 a2] [b0 b1 b2] [c0 c1 c2]], A as [[d0 d1 d2] [e0 e1 e2] [f0 f1 f2]].
    unfold frob2, msub, nrm2, dot, vsub in H. cbn [r0 r1 r2 vx vy vz] in H.
    pose proof (Rle_0_sqr (a0 - d0)). pose proof (Rle_0_sqr (a1 - d1)). pose proof (Rle_0_sqr (a2 - d2)).
    pose proof (Rle_0_sqr (b0 - e0)). pose proof (Rle_0_sqr (b1 - e1)). pose proof (Rle_0_sqr (b2 - e2)).
    pose proof (Rle_0_sqr (c0 - f0)). pose proof (Rle_0_sqr (c1 - f1)). pose proof (Rle_0_sqr (c2 - f2)).
    assert (K : forall x y, Rsqr (x - y) <= 0 -> x = y). { intros x y Hx. pose proof (Rle_0_sqr (x - y)). assert (Rsqr (x - y) = 0) by lra. apply Rsqr_0_uniq in H10. lra. }
    unfold Rsqr in *. f_equal; f_equal; apply K; unfold Rsqr; lra. }
  split; [exact E|]. intros svd arr f HL HF. rewrite E. unfold rotated. rewrite map_map.
  rewrite <- (map_id (p_arr f)) at 2. apply map_ext. intros p. destruct (fit_inv _ _ _ HL HF) as (_ & u & m & S & _).
  apply orthonormal_expand. exact (svd_v _ _ _ _ S).
Qed.
Example C215_ex : exists f, PCAOrientation svd_ref tilted_data None None = Ok f.
Proof. destruct tilted_fit as (f & H & _). eauto. Qed.

Print Assumptions C215_products.
Print Assumptions C215_turned.
Print Assumptions C215_axis_transform.
