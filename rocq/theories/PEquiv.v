(** C190-C191: the error cone and the strike move with the data. *)
From Coq Require Import Reals Lra Lia List Psatz Permutation Arith.
From Verif Require Import RVec Trig SpecPlane SpecFront SpecEquiv MPca LSvd LPca LFit LAngles LFit2 LExamples MAxes LAxes PPca PAxes.
Import ListNotations.
Open Scope R_scope.

(** * Functions of the scatter *)
Definition form (axes : mat3) (w u : vec3) : R :=
  vx w * (dot (r0 axes) u * dot (r0 axes) u) + vy w * (dot (r1 axes) u * dot (r1 axes) u)
  + vz w * (dot (r2 axes) u * dot (r2 axes) u).

Lemma coef_commute : forall l1 l2 w1 w2 x : R, (l1 = l2 -> w1 = w2) -> l1 * x = l2 * x -> w1 * x = w2 * x.
Proof.
  intros l1 l2 w1 w2 x H E. destruct (Req_EM_T x 0) as [->|N]; [ring|].
  rewrite H; auto. apply Rmult_eq_reg_r with x; auto.
Qed.

(** two orthonormal frames in which the same quadratic form is diagonal with the
    same eigenvalues: any function of the eigenvalues gives one form *)
Lemma form_same : forall v v' l w,
  orthonormal v -> orthonormal v' ->
  (forall d e, vx l * (dot (r0 v) d * dot (r0 v) e) + vy l * (dot (r1 v) d * dot (r1 v) e)
             + vz l * (dot (r2 v) d * dot (r2 v) e)
             = vx l * (dot (r0 v') d * dot (r0 v') e) + vy l * (dot (r1 v') d * dot (r1 v') e)
             + vz l * (dot (r2 v') d * dot (r2 v') e)) ->
  (vx l = vy l -> vx w = vy w) -> (vy l = vz l -> vy w = vz w) -> (vx l = vz l -> vx w = vz w) ->
  forall u, form v w u = form v' w u.
Proof.
  intros v v' l w O O' H T01 T12 T02 u.
  pose proof O as (h00 & h11 & h22 & h01 & h02 & h12).
  pose proof O' as (g00 & g11 & g22 & g01 & g02 & g12).
  (* coefficients commute with the change of frame *)
  assert (S : forall a b, dot a b = dot b a) by (intros; apply dot_comm).
  assert (M : forall i j li lj wi wj,
     (i = r0 v /\ li = vx l /\ wi = vx w \/ i = r1 v /\ li = vy l /\ wi = vy w \/ i = r2 v /\ li = vz l /\ wi = vz w) ->
     (j = r0 v' /\ lj = vx l /\ wj = vx w \/ j = r1 v' /\ lj = vy l /\ wj = vy w \/ j = r2 v' /\ lj = vz l /\ wj = vz w) ->
     wi * dot i j = wj * dot i j).
  { intros i j li lj wi wj Hi Hj. apply coef_commute with li lj.
    - destruct Hi as [(-> & -> & ->)|[(-> & -> & ->)|(-> & -> & ->)]];
      destruct Hj as [(-> & -> & ->)|[(-> & -> & ->)|(-> & -> & ->)]]; auto; intros Q; symmetry; auto.
    - assert (E : vx l * (dot (r0 v) i * dot (r0 v) j) + vy l * (dot (r1 v) i * dot (r1 v) j) + vz l * (dot (r2 v) i * dot (r2 v) j)
        = vx l * (dot (r0 v') i * dot (r0 v') j) + vy l * (dot (r1 v') i * dot (r1 v') j) + vz l * (dot (r2 v') i * dot (r2 v') j)) by apply H.
      destruct Hi as [(-> & -> & ->)|[(-> & -> & ->)|(-> & -> & ->)]];
      destruct Hj as [(-> & -> & ->)|[(-> & -> & ->)|(-> & -> & ->)]];
      rewrite ?h00, ?h11, ?h22, ?h01, ?h02, ?h12, ?(S (r1 v) (r0 v)), ?(S (r2 v) (r0 v)), ?(S (r2 v) (r1 v)),
        ?h01, ?h02, ?h12, ?g00, ?g11, ?g22, ?g01, ?g02, ?g12,
        ?(S (r1 v') (r0 v')), ?(S (r2 v') (r0 v')), ?(S (r2 v') (r1 v')), ?g01, ?g02, ?g12 in E;
      rewrite (S (r0 v)), (S (r1 v)), (S (r2 v)) in E || idtac; try (rewrite !(S (r0 v') (r0 v)) in E); 
      match goal with |- _ * dot ?a ?b = _ => rewrite ?(S b a) in E; rewrite ?(S a b); rewrite ?(S a b) in E end; lra. }
  assert (X : forall i, dot i u = dot i (r0 v') * dot (r0 v') u + dot i (r1 v') * dot (r1 v') u + dot i (r2 v') * dot (r2 v') u).
  { intros i. rewrite <- (orthonormal_expand v' u O') at 1. unfold mv, vm.
    rewrite !(dot_comm i (vadd _ _)), !dot_add_l, !dot_scale_l. simpl. rewrite !(dot_comm i). ring. }
  assert (Y : forall j, dot j u = dot (r0 v) j * dot (r0 v) u + dot (r1 v) j * dot (r1 v) u + dot (r2 v) j * dot (r2 v) u).
  { intros j. rewrite <- (orthonormal_expand v u O) at 1. unfold mv, vm.
    rewrite !(dot_comm j (vadd _ _)), !dot_add_l, !dot_scale_l. simpl. ring. }
  assert (M' : forall i, In i [(r0 v, vx w, vx l); (r1 v, vy w, vy l); (r2 v, vz w, vz l)] ->
     snd (fst i) * dot (fst (fst i)) u
     = vx w * (dot (fst (fst i)) (r0 v') * dot (r0 v') u) + vy w * (dot (fst (fst i)) (r1 v') * dot (r1 v') u)
       + vz w * (dot (fst (fst i)) (r2 v') * dot (r2 v') u)).
  { intros [[i wi] li] Hi. cbn [fst snd].
    assert (Hi' : i = r0 v /\ li = vx l /\ wi = vx w \/ i = r1 v /\ li = vy l /\ wi = vy w \/ i = r2 v /\ li = vz l /\ wi = vz w).
    { destruct Hi as [E|[E|[E|[]]]]; injection E as <- <- <-; auto. }
    pose proof (M i (r0 v') li (vx l) wi (vx w) Hi' ltac:(auto)) as M0.
    pose proof (M i (r1 v') li (vy l) wi (vy w) Hi' ltac:(auto)) as M1.
    pose proof (M i (r2 v') li (vz l) wi (vz w) Hi' ltac:(auto)) as M2.
    rewrite (X i). rewrite <- !(Rmult_assoc _ (dot i _)), <- M0, <- M1, <- M2. ring. }
  pose proof (M' (r0 v, vx w, vx l) ltac:(simpl; auto)) as E0.
  pose proof (M' (r1 v, vy w, vy l) ltac:(simpl; auto)) as E1.
  pose proof (M' (r2 v, vz w, vz l) ltac:(simpl; auto)) as E2.
  cbn [fst snd] in E0, E1, E2. unfold form.
  rewrite <- !(Rmult_assoc _ (dot (r0 v) u)), <- !(Rmult_assoc _ (dot (r1 v) u)), <- !(Rmult_assoc _ (dot (r2 v) u)).
  rewrite E0, E1, E2.
  transitivity (vx w * (dot (r0 v') u * (dot (r0 v) (r0 v') * dot (r0 v) u + dot (r1 v) (r0 v') * dot (r1 v) u + dot (r2 v) (r0 v') * dot (r2 v) u))
    + vy w * (dot (r1 v') u * (dot (r0 v) (r1 v') * dot (r0 v) u + dot (r1 v) (r1 v') * dot (r1 v) u + dot (r2 v) (r1 v') * dot (r2 v) u))
    + vz w * (dot (r2 v') u * (dot (r0 v) (r2 v') * dot (r0 v) u + dot (r1 v) (r2 v') * dot (r1 v) u + dot (r2 v) (r2 v') * dot (r2 v) u))).
  { ring. }
  rewrite <- !Y. reflexivity.
Qed.

(** the frame of the turned data, turned back *)
Lemma mmulT_orthonormal : forall v m, orthonormal v -> orthonormal m ->
  orthonormal (M3 (vm (r0 v) m) (vm (r1 v) m) (vm (r2 v) m)).
Proof.
  intros v m (h00 & h11 & h22 & h01 & h02 & h12) O. unfold orthonormal; simpl.
  rewrite !(dot_vm_vm m) by auto. auto 10.
Qed.

Lemma cones_agree : forall a u s v b u' v' m k h,
  is_svd a u s v -> is_svd b u' (vscale k s) v' -> orthonormal m -> 0 < k ->
  (forall d e, Q b (mv m d) (mv m e) = k * k * Q a d e) ->
  vz s < vy s -> (vx s = vy s -> vx h = vy h) -> same_cone m v v' h h.
Proof.
  intros a u s v b u' v' m k h Ha Hb Om Hk HQ G T.
  pose proof (svd_s2 _ _ _ _ Ha) as P2. pose proof (svd_s01 _ _ _ _ Ha) as P01.
  set (w := M3 (vm (r0 v') m) (vm (r1 v') m) (vm (r2 v') m)).
  assert (Ow : orthonormal w) by (apply mmulT_orthonormal; auto; exact (svd_v _ _ _ _ Hb)).
  assert (D : forall r d, dot (vm r m) d = dot r (mv m d)).
  { intros r d. rewrite dot_comm, <- dot_mv_vm. apply dot_comm. }
  set (l := V3 (vx s * vx s) (vy s * vy s) (vz s * vz s)).
  assert (F : forall x, form v (V3 (/ vx h) (/ vy h) (- / vz h)) x = form w (V3 (/ vx h) (/ vy h) (- / vz h)) x).
  { apply form_same with l; auto.
    - exact (svd_v _ _ _ _ Ha).
    - intros d e. pose proof (HQ d e) as E. rewrite (Q_svd _ _ _ _ _ _ Ha), (Q_svd _ _ _ _ _ _ Hb) in E.
      unfold w, l. cbn [r0 r1 r2 vx vy vz]. rewrite !D. cbn [vscale vx vy vz] in E.
      apply Rmult_eq_reg_l with (k * k); [|nra]. rewrite <- E. ring.
    - unfold l; simpl. intros E. rewrite T; auto. nra.
    - unfold l; simpl. intros E. exfalso. nra.
    - unfold l; simpl. intros E. exfalso. nra. }
  intros x. specialize (F x). unfold form in F. cbn [vx vy vz] in F. unfold w in F. cbn [r0 r1 r2] in F. rewrite !D in F.
  unfold on_cone, within, c0, c1, c2. rewrite !(dot_comm (mv m x)), !(dot_comm x).
  unfold Rdiv. split; split; lra.
Qed.

Lemma stat_tie : forall st kw f h, statistical_axes st kw f = Some h -> vx (p_s f) = vy (p_s f) -> vx h = vy h.
Proof.
  intros st kw f h H E. unfold statistical_axes in H.
  destruct (eigenvalues f) as [e|] eqn:Ee; [|discriminate]. cbn [obind] in H.
  assert (T : vx e = vy e).
  { unfold eigenvalues in Ee. destruct (Req_EM_T _ 0); [discriminate|]. injection Ee as <-. simpl. now rewrite E. }
  assert (C : forall c, (match k_method kw with MSampling => sampling_covariance f | MNoise => noise_covariance f 2 end) = Some c ->
     vx c = vy c).
  { intros c. destruct (k_method kw); unfold sampling_covariance, noise_covariance; rewrite Ee; cbn [obind];
    match goal with |- obind ?x _ = _ -> _ => destruct x; [|discriminate] end; cbn [obind]; intros Q; injection Q as <-;
    simpl; now rewrite T. }
  destruct (match k_method kw with MSampling => _ | MNoise => _ end) as [c|]; [|discriminate]. specialize (C c eq_refl).
  cbn [obind] in H.
  match type of H with obind ?x _ = _ => destruct x as [z|]; [|discriminate] end. cbn [obind] in H.
  unfold vsqrt, fsqrt in H. rewrite C in H.
  destruct (Rlt_dec (vy c) 0); [discriminate|]. destruct (Rlt_dec (vz c) 0); [discriminate|].
  cbn [obind] in H. unfold apply_error_scaling in H.
  match type of H with obind ?x _ = _ => destruct x as [z0|]; [|discriminate] end. cbn [obind] in H.
  injection H as <-. simpl. now rewrite T.
Qed.

(** ** C190: the error cone is a function of the data alone, and moves with it *)
Theorem C190_rotated : forall svd1 svd2 arr f1 f2 m st kw h,
  lapack svd1 -> lapack svd2 -> orthonormal m ->
  PCAOrientation svd1 arr None None = Ok f1 ->
  PCAOrientation svd2 (map (mv m) arr) None None = Ok f2 ->
  vz (p_s f1) < vy (p_s f1) -> statistical_axes st kw f1 = Some h ->
  statistical_axes st kw f2 = Some h /\ same_cone m (p_axes f1) (p_axes f2) h h.
Proof.
  intros svd1 svd2 arr f1 f2 m st kw h L1 L2 O F1 F2 G H.
  destruct (C07_errors _ _ _ _ _ _ st kw L1 L2 O F1 F2) as [E _].
  split. { now rewrite E. }
  destruct (rot_fits _ _ _ _ _ _ L1 L2 O F1 F2) as (S & _).
  destruct (fit_inv _ _ _ L1 F1) as (_ & u1 & m1 & S1 & _).
  destruct (fit_inv _ _ _ L2 F2) as (_ & u2 & m2 & S2 & _).
  assert (S2' : is_svd (centered (map (mv m) arr)) u2 (vscale 1 (p_s f1)) (p_axes f2)).
  { replace (vscale 1 (p_s f1)) with (p_s f2); auto. rewrite S. vring. }
  apply (cones_agree _ _ _ _ _ _ _ m 1 h S1 S2'); auto; try lra.
  - intros d e. rewrite centered_mv, Q_map_mv.
    assert (X : forall w, vm (mv m w) m = w) by (intros; now apply orthonormal_expand).
    rewrite !X. ring.
  - intros. eapply stat_tie; eauto.
Qed.
Theorem C190_shuffled : forall svd1 svd2 arr1 arr2 f1 f2 st kw h,
  lapack svd1 -> lapack svd2 -> Permutation arr1 arr2 ->
  PCAOrientation svd1 arr1 None None = Ok f1 -> PCAOrientation svd2 arr2 None None = Ok f2 ->
  vz (p_s f1) < vy (p_s f1) -> statistical_axes st kw f1 = Some h ->
  statistical_axes st kw f2 = Some h /\ same_cone mid (p_axes f1) (p_axes f2) h h.
Proof.
  intros svd1 svd2 arr1 arr2 f1 f2 st kw h L1 L2 P F1 F2 G H.
  destruct (C06_errors _ _ _ _ _ _ st kw L1 L2 P F1 F2) as [E _].
  split. { now rewrite E. }
  destruct (perm_fits _ _ _ _ _ _ L1 L2 P F1 F2) as (S & _).
  destruct (fit_inv _ _ _ L1 F1) as (_ & u1 & m1 & S1 & _).
  destruct (fit_inv _ _ _ L2 F2) as (_ & u2 & m2 & S2 & _).
  assert (S2' : is_svd (centered arr2) u2 (vscale 1 (p_s f1)) (p_axes f2)).
  { replace (vscale 1 (p_s f1)) with (p_s f2); auto. rewrite S. vring. }
  apply (cones_agree _ _ _ _ _ _ _ mid 1 h S1 S2'); auto using orthonormal_id; try lra.
  - intros d e. rewrite !mv_id, <- (Q_perm _ _ d e (centered_perm _ _ P)). ring.
  - intros. eapply stat_tie; eauto.
Qed.
Lemma same_cone_scale : forall m a b h k, 0 < k -> same_cone m a b h h -> same_cone m a b h (vscale k h).
Proof.
  intros m a b h k K H u. destruct (H u) as [H1 H2].
  assert (I : forall x y, x / (k * y) = / k * (x / y)).
  { intros x y. unfold Rdiv. rewrite Rinv_mult. ring. }
  pose proof (Rinv_0_lt_compat _ K) as K'.
  rewrite <- H1, <- H2. unfold on_cone, within. cbn [vscale vx vy vz]. rewrite !I, <- Rmult_plus_distr_l.
  split; split; intros E.
  - apply Rmult_eq_reg_l in E; auto. lra.
  - now rewrite E.
  - apply Rmult_le_reg_l in E; auto.
  - apply Rmult_le_compat_l; auto; lra.
Qed.
Theorem C190_scaled : forall svd1 svd2 arr f1 f2 k st kw z,
  lapack svd1 -> lapack svd2 -> 0 < k ->
  PCAOrientation svd1 arr None None = Ok f1 ->
  PCAOrientation svd2 (map (vscale k) arr) None None = Ok f2 ->
  stat_value st kw (INR (length arr)) = Some z -> 0 <= z ->
  vz (p_s f1) < vy (p_s f1) ->
  exists h h', statistical_axes st kw f1 = Some h /\ statistical_axes st kw f2 = Some h' /\
    same_cone mid (p_axes f1) (p_axes f2) h h'.
Proof.
  intros svd1 svd2 arr f1 f2 k st kw z L1 L2 K F1 F2 HS Hz G.
  destruct (C08_errors _ _ _ _ _ _ st kw z L1 L2 K F1 F2 HS Hz) as (h & H1 & H2 & _).
  exists h, (vscale (k * k) h). split; auto. split; auto. apply same_cone_scale. { nra. }
  destruct (scale_fits _ _ _ _ _ _ L1 L2 K F1 F2) as (S & _).
  destruct (fit_inv _ _ _ L1 F1) as (_ & u1 & m1 & S1 & _).
  destruct (fit_inv _ _ _ L2 F2) as (_ & u2 & m2 & S2 & _). rewrite S in S2.
  apply (cones_agree _ _ _ _ _ _ _ mid k h S1 S2); auto using orthonormal_id.
  - intros d e. rewrite !mv_id, centered_scale. unfold Q. rewrite sumf_map, <- sumf_scal.
    apply sumf_ext. intros; rewrite !dot_scale_l; ring.
  - intros. eapply stat_tie; eauto.
Qed.

(** Without the gap between the second and third singular value the cone is not
    determined: it is whichever LAPACK's choice of axes makes it. *)
Definition swap12 (u : vec3) : vec3 := V3 (vx u) (vz u) (vy u).
Definition svd_swap (a : list vec3) : list vec3 * vec3 * mat3 :=
  let '(u, s, v) := svd_ref a in
  if Req_EM_T (vy s) (vz s) then (map swap12 u, s, M3 (r0 v) (r2 v) (r1 v)) else (u, s, v).
Lemma lapack_swap : lapack svd_swap.
Proof.
  intros a Ha. pose proof (lapack_ref a Ha) as H. unfold svd_ok_on, svd_swap in *.
  destruct (svd_ref a) as [[u s] v]. destruct (Req_EM_T (vy s) (vz s)) as [E|]; auto.
  destruct H. constructor; rewrite ?sumf_map; simpl; auto.
  - rewrite svd_fact, map_map. apply map_ext. intros [x y z]. destruct v as [v0 v1 v2].
    unfold vm, vmul, swap12. cbn [vx vy vz r0 r1 r2]. rewrite E. apply vec3_eq; vunf; ring.
  - rewrite <- svd_u12. apply sumf_ext. intros; ring.
  - destruct svd_v as (h00 & h11 & h22 & h01 & h02 & h12). unfold orthonormal; simpl.
    rewrite (dot_comm (r2 v) (r1 v)). auto 10.
Qed.
Lemma swap_fit : forall arr f1 f2, vy (p_s f1) = vz (p_s f1) ->
  PCAOrientation svd_ref arr None None = Ok f1 -> PCAOrientation svd_swap arr None None = Ok f2 ->
  p_axes f2 = M3 (r0 (p_axes f1)) (r2 (p_axes f1)) (r1 (p_axes f1)).
Proof.
  intros arr f1 f2 E F1 F2. unfold PCAOrientation, run_svd in F1, F2.
  destruct (length (centered arr) <? 3)%nat; [discriminate|].
  rewrite has_zero_ones, vdiv_ones in F1, F2. unfold svd_swap in F2.
  destruct (svd_ref (centered arr)) as [[u s] v]. simpl in F1. injection F1 as <-. simpl in E.
  destruct (Req_EM_T (vy s) (vz s)) as [_|N]; simpl in F2.
  - injection F2 as <-. reflexivity.
  - exfalso. apply N. lra.
Qed.
Theorem C190_tie_refuted : exists svd1 svd2 arr f1 f2 st h,
  lapack svd1 /\ lapack svd2 /\
  PCAOrientation svd1 arr None None = Ok f1 /\ PCAOrientation svd2 arr None None = Ok f2 /\
  hyperbolic_axes st f1 = Some h /\ hyperbolic_axes st f2 = Some h /\
  0 < vx h /\ 0 < vy h /\ 0 < vz h /\ ~ same_cone mid (p_axes f1) (p_axes f2) h h.
Proof.
  destruct (axis_fit 2 1 1) as [f1 F1].
  destruct (fit_exists svd_swap (axis_data 2 1 1) lapack_swap) as [f2 F2]. { simpl; lia. }
  pose proof (axis_singular _ 2 1 1 _ lapack_ref ltac:(lra) ltac:(lra) F1) as S1.
  pose proof (swap_fit _ _ _ ltac:(rewrite S1; reflexivity) F1 F2) as A.
  destruct (fit_has_facts _ _ _ lapack_ref F1) as (e & FF). pose proof FF as [E _ NN _].
  set (n := INR (length (axis_data 2 1 1))) in *.
  assert (Nn : n = 6) by (unfold n; simpl; ring).
  pose proof (stat_axes_value (const_stats (1/2)) default_kw f1 _ _ (1/2) FF eq_refl ltac:(lra)) as H.
  destruct (C06_errors _ _ _ _ _ _ (const_stats (1/2)) default_kw lapack_ref lapack_swap (Permutation_refl _) F1 F2) as [H2 _].
  exists svd_ref, svd_swap, (axis_data 2 1 1), f1, f2, (const_stats (1/2)), (axes_value default_kw (1/2) e n).
  split; [exact lapack_ref|]. split; [exact lapack_swap|]. split; auto. split; auto.
  split; [exact H|]. split. { unfold hyperbolic_axes, noise_axes. rewrite H2. exact H. }
  assert (Ev : e = V3 (8/5) (2/5) (2/5)).
  { unfold eigenvalues in E. unfold n_of in NN.
    assert (N6 : p_n f1 = 6%nat) by (apply INR_eq; rewrite NN, Nn; simpl; ring).
    rewrite N6 in E. simpl in E. destruct (Req_EM_T 5 0); [lra|]. injection E as <-. rewrite S1. simpl.
    assert (S2 : sqrt 2 * sqrt 2 = 2) by (apply sqrt_sqrt; lra).
    apply vec3_eq; simpl; nra. }
  assert (HV : axes_value default_kw (1/2) e n = V3 (6/5) (1/5) (3/5)).
  { unfold axes_value, err_term, z_nominal; simpl. unfold noise_term. rewrite Ev, Nn. cbn [vx vy vz].
    replace (8/5 * (2/5 / (6 - 2))) with (2/5 * (2/5)) by lra.
    replace (2/5 * (2/5 / (6 - 2))) with (1/5 * (1/5)) by lra.
    rewrite !sqrt_square by lra. apply vec3_eq; simpl.
    - rewrite Rabs_right; lra. - rewrite Rabs_right; lra. - lra. }
  rewrite HV. cbn [vx vy vz]. do 3 (split; [lra|]).
  intros C. destruct (C (vadd (r1 (p_axes f1)) (vscale (sqrt 3) (r2 (p_axes f1))))) as [[_ K] _].
  assert (O : orthonormal (p_axes f1)).
  { destruct (fit_inv _ _ _ lapack_ref F1) as (_ & u1 & m1 & Q1 & _). exact (svd_v _ _ _ _ Q1). }
  destruct O as (h00 & h11 & h22 & h01 & h02 & h12).
  assert (S3 : sqrt 3 * sqrt 3 = 3) by (apply sqrt_sqrt; lra).
  assert (D0 : dot (r1 (p_axes f1)) (r0 (p_axes f1)) = 0) by (rewrite dot_comm; auto).
  assert (D1 : dot (r2 (p_axes f1)) (r0 (p_axes f1)) = 0) by (rewrite dot_comm; auto).
  assert (D2 : dot (r2 (p_axes f1)) (r1 (p_axes f1)) = 0) by (rewrite dot_comm; auto).
  unfold on_cone, c0, c1, c2 in K. rewrite mv_id, A in K. cbn [r0 r1 r2 vx vy vz] in K.
  rewrite !dot_add_l, !dot_scale_l, D0, D1, D2, h11, h22, h12 in K.
  assert (K' : (0 + sqrt 3 * 0) * (0 + sqrt 3 * 0) / (6 / 5) + (1 + sqrt 3 * 0) * (1 + sqrt 3 * 0) / (1 / 5)
     = (0 + sqrt 3 * 1) * (0 + sqrt 3 * 1) / (3 / 5)) by nra.
  specialize (K K'). nra.
Qed.
Example C190_ex : exists f1 f2, orthonormal rot345 /\
  PCAOrientation svd_ref (axis_data 3 2 1) None None = Ok f1 /\
  PCAOrientation svd_ref tilted_data None None = Ok f2 /\ vz (p_s f1) < vy (p_s f1) /\
  exists h, hyperbolic_axes (const_stats 7) f1 = Some h.
Proof.
  destruct tilted_fit as (f & H & N & G & _). destruct example_fit as (f1 & F1 & _ & _ & G1).
  exists f1, f. do 4 (split; [auto using rot345_orthonormal|]).
  destruct (fit_has_facts _ _ _ lapack_ref F1) as (e & FF). eexists.
  apply (stat_axes_value (const_stats 7) default_kw f1 _ _ 7 FF eq_refl ltac:(lra)).
Qed.

(** ** C191: strike and dip of a turned outcrop *)
Lemma yaw_orthonormal : forall t, orthonormal (yaw t).
Proof.
  intros t. pose proof (sincos1 (radians t)). unfold orthonormal, yaw, dot; simpl. repeat split; lra.
Qed.
Lemma mirror_orthonormal : orthonormal mirror_x.
Proof. unfold orthonormal, mirror_x, dot; simpl. repeat split; lra. Qed.
Lemma yaw_normal : forall t s d, mv (yaw t) (plane_normal s d) = plane_normal (s - t) d.
Proof.
  intros t s d. rewrite !plane_normal_components.
  replace (radians (s - t)) with (radians s - radians t) by (unfold radians; field).
  rewrite cos_minus, sin_minus. apply vec3_eq; unfold yaw; munf; ring.
Qed.
Lemma mirror_normal : forall s d, mv mirror_x (plane_normal s d) = plane_normal (180 - s) d.
Proof.
  intros s d. rewrite !plane_normal_components.
  replace (radians (180 - s)) with (PI - radians s) by (unfold radians; field).
  rewrite Rtrigo_facts.cos_pi_minus, Rtrigo_facts.sin_pi_minus. apply vec3_eq; unfold mirror_x; munf; ring.
Qed.
Lemma sincos_cong : forall a b, cos (radians a) = cos (radians b) -> sin (radians a) = sin (radians b) -> cong360 a b.
Proof.
  intros a b C S.
  assert (Z : sin (radians a - radians b) = 0) by (rewrite sin_minus, C, S; ring).
  assert (O : cos (radians a - radians b) = 1) by (rewrite cos_minus, C, S; pose proof (sincos1 (radians b)); lra).
  apply sin_eq_0_0 in Z. destruct Z as [k K].
  destruct (Zeven_odd_dec k) as [E|E].
  - apply Zeven_div2 in E. exists (Z.div2 k). rewrite E, mult_IZR in K.
    assert (P : 0 < PI) by exact PI_RGT_0. unfold radians in K.
    apply Rmult_eq_reg_r with (PI / 180); [|lra]. lra.
  - apply Zodd_div2 in E. rewrite K, E, plus_IZR, mult_IZR in O.
    replace ((2 * IZR (Z.div2 k) + 1) * PI) with (PI + 2 * IZR (Z.div2 k) * PI) in O by ring.
    exfalso. assert (Y : forall j, cos (PI + 2 * IZR j * PI) = -1).
    { intros j. rewrite <- (cos_PI). destruct (Z_le_dec 0 j) as [P|P].
      - rewrite <- (Z2Nat.id j) by auto. rewrite <- INR_IZR_INZ. apply cos_period.
      - rewrite <- (cos_period PI (Z.to_nat (- j))), INR_IZR_INZ, Z2Nat.id by lia.
        rewrite opp_IZR. replace (PI + 2 * - IZR j * PI) with (2 * PI - (PI + 2 * IZR j * PI) + 0) by ring.
        rewrite Rplus_0_r, cos_minus, cos_2PI, sin_2PI. ring. }
    rewrite Y in O. lra.
Qed.
Lemma plane_normal_inj : forall s d s' d', 0 <= d <= 90 -> 0 <= d' <= 90 ->
  plane_normal s d = plane_normal s' d' -> d = d' /\ (0 < d -> cong360 s s').
Proof.
  intros s d s' d' H H' E. rewrite !plane_normal_components in E. injection E as E0 E1 E2.
  assert (P : 0 < PI) by exact PI_RGT_0.
  assert (B : forall x, 0 <= x <= 90 -> 0 <= radians x <= PI / 2) by (intros; unfold radians; split; nra).
  assert (D : d = d').
  { pose proof (B d H). pose proof (B d' H'). apply Rmult_eq_reg_r with (PI / 180); [|lra].
    apply cos_inj in E2; [unfold radians in E2; lra | lra | lra]. }
  split; auto. intros G. subst d'.
  assert (0 < sin (radians d)). { pose proof (B d H). apply sin_gt_0; [unfold radians; nra | lra]. }
  apply sincos_cong; apply Rmult_eq_reg_l with (sin (radians d)); lra.
Qed.

Lemma moved_strike : forall svd1 svd2 arr f1 f2 m s1 d1 s2 d2 s',
  lapack svd1 -> lapack svd2 -> orthonormal m ->
  PCAOrientation svd1 arr None None = Ok f1 ->
  PCAOrientation svd2 (map (mv m) arr) None None = Ok f2 ->
  vz (p_s f1) < vy (p_s f1) ->
  strike_dip f1 = Some (s1, d1) -> strike_dip f2 = Some (s2, d2) ->
  mv m (plane_normal s1 d1) = plane_normal s' d1 ->
  d2 = d1 /\ (0 < d1 < 90 -> cong360 s2 s') /\ (d1 = 90 -> cong360 s2 s' \/ cong360 s2 (s' + 180)).
Proof.
  intros svd1 svd2 arr f1 f2 m s1 d1 s2 d2 s' L1 L2 O F1 F2 G E1 E2 M.
  destruct (rot_fits _ _ _ _ _ _ L1 L2 O F1 F2) as (_ & _ & _ & N). specialize (N G).
  rewrite <- (C12_strike_dip_plane _ _ ones _ L1 F1 _ _ E1), <- (C12_strike_dip_plane _ _ ones _ L2 F2 _ _ E2), M in N.
  destruct (C11_strike_dip_range _ _ ones _ L1 F1) as (x & y & X & R1 & _). rewrite E1 in X. injection X as <- <-.
  destruct (C11_strike_dip_range _ _ ones _ L2 F2) as (x & y & X & R2 & _). rewrite E2 in X. injection X as <- <-.
  destruct N as [N|N].
  - destruct (plane_normal_inj _ _ _ _ R1 R2 N) as [D C]. split; auto.
    assert (S : 0 < d1 -> cong360 s2 s') by (intros; destruct (C H) as [k K]; exists (- k)%Z; rewrite opp_IZR; lra).
    split; [intros; apply S; lra | intros; left; apply S; lra].
  - (* opposite normals, both upward: both horizontal vectors *)
    rewrite !plane_normal_components in N. injection N as N0 N1 N2.
    assert (P : 0 < PI) by exact PI_RGT_0.
    assert (B : forall x, 0 <= x <= 90 -> 0 <= cos (radians x) /\ (cos (radians x) = 0 -> x = 90)).
    { intros x Hx. assert (0 <= radians x <= PI / 2) by (unfold radians; split; nra). split.
      - apply cos_ge_0; lra.
      - intros Z. rewrite <- cos_PI2 in Z. apply cos_inj in Z; try lra. unfold radians in Z.
        apply Rmult_eq_reg_r with (PI / 180); lra. }
    destruct (B d1 R1) as [B1 C1], (B d2 R2) as [B2 C2].
    assert (d1 = 90) by (apply C1; lra). assert (d2 = 90) by (apply C2; lra). subst d1 d2.
    split; auto. split; [lra|]. intros _. right. rewrite radians_90, sin_PI2 in N0, N1.
    apply sincos_cong; replace (radians (s' + 180)) with (radians s' + PI) by (unfold radians; field);
      [rewrite neg_cos | rewrite neg_sin]; lra.
Qed.
Theorem C191_turned : forall svd1 svd2 arr f1 f2 t s1 d1 s2 d2,
  lapack svd1 -> lapack svd2 ->
  PCAOrientation svd1 arr None None = Ok f1 ->
  PCAOrientation svd2 (map (mv (yaw t)) arr) None None = Ok f2 ->
  vz (p_s f1) < vy (p_s f1) ->
  strike_dip f1 = Some (s1, d1) -> strike_dip f2 = Some (s2, d2) ->
  d2 = d1 /\ (0 < d1 < 90 -> cong360 s2 (s1 - t)) /\
  (d1 = 90 -> cong360 s2 (s1 - t) \/ cong360 s2 (s1 - t + 180)).
Proof.
  intros. apply (moved_strike svd1 svd2 arr f1 f2 (yaw t) s1); auto using yaw_orthonormal, yaw_normal.
Qed.
Theorem C191_mirrored : forall svd1 svd2 arr f1 f2 s1 d1 s2 d2,
  lapack svd1 -> lapack svd2 ->
  PCAOrientation svd1 arr None None = Ok f1 ->
  PCAOrientation svd2 (map (mv mirror_x) arr) None None = Ok f2 ->
  vz (p_s f1) < vy (p_s f1) ->
  strike_dip f1 = Some (s1, d1) -> strike_dip f2 = Some (s2, d2) ->
  d2 = d1 /\ (0 < d1 < 90 -> cong360 s2 (180 - s1)) /\
  (d1 = 90 -> cong360 s2 (180 - s1) \/ cong360 s2 (180 - s1 + 180)).
Proof.
  intros. apply (moved_strike svd1 svd2 arr f1 f2 mirror_x s1); auto using mirror_orthonormal, mirror_normal.
Qed.
Example C191_ex : exists f1 f2 s1 d1 s2 d2,
  PCAOrientation svd_ref tilted_data None None = Ok f1 /\
  PCAOrientation svd_ref (map (mv (yaw 30)) tilted_data) None None = Ok f2 /\
  vz (p_s f1) < vy (p_s f1) /\ strike_dip f1 = Some (s1, d1) /\ strike_dip f2 = Some (s2, d2) /\ 0 < d1 < 90.
Proof.
  destruct C12_ex as (f & s & d & H & E & D & _).
  destruct tilted_fit as (f' & H' & _ & G & _). 
  assert (f' = f) by (assert (X : Ok f' = Ok f) by (rewrite <- H'; exact H); now injection X). subst f'.
  destruct (fit_exists svd_ref (map (mv (yaw 30)) tilted_data) lapack_ref) as [f2 F2]. { simpl; lia. }
  destruct (C11_strike_dip_range _ _ ones _ lapack_ref F2) as (s2 & d2 & E2 & _).
  exists f, f2, s, d, s2, d2. auto 10.
Qed.

Print Assumptions C190_rotated.
Print Assumptions C190_shuffled.
Print Assumptions C190_scaled.
Print Assumptions C190_tie_refuted.
Print Assumptions C191_turned.
Print Assumptions C191_mirrored.
