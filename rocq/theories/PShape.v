(** Properties of the quadrics of a fit (C136-C139). *)
From Coq Require Import Reals Lra Lia List Arith Bool Psatz.
From Verif Require Import RVec Trig LNum SpecPlane SpecConics MPca MConics LConics LPca LFit LFit2 LExamples MStereo MAxes LAxes LSlice PStereo MShape PConics PConics2.
Import ListNotations.
Open Scope R_scope.

(** * Preliminaries *)
Lemma transform_symmetric : forall n C T, symmetric (S n) C -> symmetric (S n) (transform n C T).
Proof. intros n C T S i j I J. unfold trn. rewrite !transform_entries. now apply bil_sym. Qed.
Lemma transform_axes_value : forall C A p,
  value 3 (transform 3 C (augment_matrix A)) (vec_of3 p) = value 3 C (vec_of3 (mv A p)).
Proof.
  intros C A p. rewrite <- !solve_value, solve_transform, !solve_bil.
  apply bil_ext; [apply meq_refl| |]; intros i I;
    (destruct i as [|[|[|[|i]]]]; [| | | |lia]); unfold mulv, augment_matrix, augment, mget, idn; simpl;
    destruct A as [[] [] []], p; unfold mv, dot; simpl; ring.
Qed.
Lemma np_var_ne : forall l, l <> [] -> np_var l = Some (sumf (fun x => (x - sumf (fun x => x) l / INR (length l)) *
  (x - sumf (fun x => x) l / INR (length l))) l / INR (length l)).
Proof. intros [|x l] H; [congruence|reflexivity]. Qed.
Lemma np_var_opp : forall l, np_var (map Ropp l) = np_var l.
Proof.
  intros l. destruct l as [|x0 l0] eqn:E0; [reflexivity|]. rewrite <- E0.
  assert (N : map Ropp l <> []) by (subst; discriminate). assert (N' : l <> []) by (subst; discriminate). clear E0 x0 l0.
  rewrite !np_var_ne by auto. f_equal.
  assert (S1 : sumf (fun x => x) (map Ropp l) = - sumf (fun x => x) l).
  { clear. induction l as [|a m IH]; simpl; [ring|]. rewrite IH. ring. }
  rewrite map_length, S1. f_equal. set (k := INR (length l)). set (t := sumf (fun x => x) l).
  replace (- t / k) with (- (t / k)) by (unfold Rdiv; ring). generalize (t / k). clear. intros q.
  induction l as [|a m IH]; simpl; [reflexivity|]. rewrite IH. ring.
Qed.
Lemma flip_covariance : forall f, covariance_noise (flip_down_axes f) = covariance_noise f.
Proof.
  intros f. unfold flip_down_axes. destruct (Rlt_dec _ 0); [|reflexivity].
  assert (R : rotated (with_axes f (mneg (p_axes f))) = map vneg (rotated f)).
  { unfold rotated. simpl. rewrite map_map. apply map_ext. intros p. apply vec3_eq; munf; destruct (p_axes f) as [[] [] []], p; simpl; ring. }
  unfold covariance_noise. rewrite R.
  assert (X : forall g, (forall p, g (vneg p) = - g p) -> np_var (map g (map vneg (rotated f))) = np_var (map g (rotated f))).
  { intros g G. rewrite map_map. rewrite (map_ext _ (fun p => - g p)) by exact G. rewrite <- (map_map g Ropp). apply np_var_opp. }
  rewrite !X by (intros []; reflexivity). reflexivity.
Qed.
Lemma step_offset : forall cs f, p_offset (run_calls f cs) = p_offset f.
Proof.
  unfold run_calls. induction cs as [|c cs IH]; intros f; cbn [fold_left]; auto. rewrite IH.
  destruct c; simpl; try reflexivity; unfold flip_down_axes, read_U; try (destruct (Rlt_dec _ 0); reflexivity).
  destruct (p_U f); reflexivity.
Qed.
Lemma fit_offset : forall svd arr w ax f, PCAOrientation svd arr w ax = Ok f -> p_offset f = V3 0 0 (vx (p_s f) * vy (p_s f)).
Proof.
  intros svd arr w ax f H. unfold PCAOrientation in H.
  destruct (match ax with None => _ | Some a => _ end) as [[[u s] v]|e|]; try discriminate.
  cbn [rbind] in H. injection H as <-. cbn [p_offset p_s]. apply vec3_eq; munf; ring.
Qed.

(** * C136: the ellipsoid of a fit *)
(** (p - k n) in the frame of the axes, over the root of the variances *)
Definition mahalanobis (A : mat3) (c u : vec3) : R :=
  dot (r0 A) u * dot (r0 A) u / vx c + dot (r1 A) u * dot (r1 A) u / vy c + dot (r2 A) u * dot (r2 A) u / vz c.

Lemma as_conic_value : forall f level k c, orthonormal (p_axes f) -> p_offset f = V3 0 0 k ->
  covariance_noise f = Some c -> has_zero c = false ->
  exists C, as_conic level f = (Ok C, flip_down_axes f) /\ symmetric 4 C /\
  forall p, value 3 C (vec_of3 p) =
    level * level * mahalanobis (p_axes (flip_down_axes f)) c (vsub p (vscale k (r2 (p_axes (flip_down_axes f))))) - 1.
Proof.
  intros f level k c O KO CV HZ. unfold as_conic. rewrite flip_covariance, CV, HZ.
  eexists. split; [reflexivity|]. split.
  { apply transform_symmetric. unfold translate. apply transform_symmetric.
    intros i j I J. unfold trn. destruct (Nat.eqb_spec i j) as [->|NE]; [now rewrite Nat.eqb_refl|].
    destruct (Nat.eqb_spec j i); [congruence|reflexivity]. }
  intros p. set (g := flip_down_axes f).
  assert (OG : orthonormal (p_axes g)).
  { unfold g, flip_down_axes. destruct (Rlt_dec _ 0); auto. cbn [with_axes p_axes]. destruct O as (a & b & d & e & h & i).
    repeat split; revert a b d e h i; destruct (p_axes f) as [[] [] []]; munf; lra. }
  assert (KG : p_offset g = V3 0 0 k) by (unfold g, flip_down_axes; destruct (Rlt_dec _ 0); auto).
  rewrite transform_axes_value, translate_value, KG. apply has_zero_false in HZ. destruct HZ as (c0 & c1 & c2).
  unfold mahalanobis. destruct OG as (O00 & O11 & O22 & O01 & O02 & O12).
  assert (D : forall a, dot a (vsub p (vscale k (r2 (p_axes g)))) = dot a p - k * dot a (r2 (p_axes g))).
  { intros a. destruct a, p, (r2 (p_axes g)). vunf. ring. }
  rewrite !D, O02, O12, O22. unfold value, vminus, vec_of3. cbn [sumn Nat.eqb Nat.ltb Nat.leb]. unfold mv. cbn [vx vy vz]. field. auto.
Qed.

(** The ellipsoid is centred on the upward normal at a distance that is the product of
    the two largest singular values, along the axes of the fit; its half-axes are the
    roots of the variances divided by the level. *)
Theorem C136_ellipsoid : forall svd arr f cs level c, lapack svd -> PCAOrientation svd arr None None = Ok f ->
  covariance_noise f = Some c -> 0 < vx c -> 0 < vy c -> 0 < vz c -> level <> 0 ->
  let centre := vscale (vx (p_s f) * vy (p_s f)) (p_normal f) in
  exists C g, as_conic level (run_calls f cs) = (Ok C, g) /\ 0 <= vz (r2 (p_axes g)) /\
  (forall p, contains 3 C (vec_of3 p) false <-> mahalanobis (p_axes f) c (vsub p centre) <= 1 / (level * level)) /\
  (forall p, contains 3 C (vec_of3 (vadd centre p)) false <-> contains 3 C (vec_of3 (vsub centre p)) false).
Proof.
  intros svd arr f cs level c L F CV C0 C1 C2 LV centre.
  destruct (fit_inv _ _ _ L F) as (_ & u & m & Hs & _ & _ & _ & _ & _ & _ & D).
  pose proof (svd_v _ _ _ _ Hs) as O. pose proof (good_derived f D) as G.
  destruct (run_same cs f G) as (S & GR & A). set (r := run_calls f cs) in *.
  assert (OR : orthonormal (p_axes r)).
  { rewrite A. destruct (existsb _ _); auto. destruct (Rlt_dec _ _); auto. now apply orthonormal_neg. }
  assert (CR : covariance_noise r = Some c).
  { rewrite <- CV. unfold covariance_noise, rotated. rewrite (sf_arr _ _ S), (sf_s _ _ S), A.
    destruct (existsb _ _); auto. pose proof (flip_covariance f) as K. unfold flip_down_axes in K.
    destruct (Rlt_dec _ _); auto. }
  assert (KR : p_offset r = V3 0 0 (vx (p_s f) * vy (p_s f))) by (unfold r; rewrite step_offset; eapply fit_offset; eauto).
  clearbody r. assert (HZ : has_zero c = false) by (apply has_zero_false; repeat split; lra).
  destruct (as_conic_value r level _ c OR KR CR HZ) as (C & E & _ & V).
  destruct (step_same r CAsConic GR) as (S2 & _ & A2). cbn [step flipping] in S2, A2.
  exists C, (flip_down_axes r). split; [exact E|].
  assert (Z : 0 <= vz (r2 (p_axes (flip_down_axes r)))).
  { rewrite A2.
    destruct (Rlt_dec (vz (r2 (p_axes r))) 0) as [h|h]; [|lra]. revert h. destruct (p_axes r) as [[] [] []]. munf. simpl. lra. }
  split; [exact Z|].
  (* the axes are those of f up to a common sign, the third being the normal *)
  assert (N : r2 (p_axes (flip_down_axes r)) = p_normal f).
  { unfold p_normal. destruct D as [D _]. rewrite D. unfold derived_normal. rewrite A2, A.
    destruct (Rlt_dec (vz (r2 (p_axes f))) 0) as [h|h].
    - destruct (existsb flipping cs).
      + destruct (Rlt_dec (vz (r2 (mneg (p_axes f)))) 0) as [k|k]; [|reflexivity].
        exfalso. simpl in k. lra.
      + destruct (Rlt_dec (vz (r2 (p_axes f))) 0); [reflexivity|contradiction].
    - destruct (existsb flipping cs); (destruct (Rlt_dec (vz (r2 (p_axes f))) 0); [contradiction|reflexivity]). }
  assert (M : forall w, mahalanobis (p_axes (flip_down_axes r)) c w = mahalanobis (p_axes f) c w).
  { intros w. assert (MN : forall B, mahalanobis (mneg B) c w = mahalanobis B c w).
    { intros B. unfold mahalanobis. replace (dot (r0 (mneg B)) w) with (- dot (r0 B) w) by (destruct B as [[] [] []], w; munf; ring).
      replace (dot (r1 (mneg B)) w) with (- dot (r1 B) w) by (destruct B as [[] [] []], w; munf; ring).
      replace (dot (r2 (mneg B)) w) with (- dot (r2 B) w) by (destruct B as [[] [] []], w; munf; ring). unfold Rdiv. ring. }
    rewrite A2, A. destruct (existsb _ _); repeat destruct (Rlt_dec _ _); rewrite ?MN; auto. }
  assert (P : forall p, contains 3 C (vec_of3 p) false <-> mahalanobis (p_axes f) c (vsub p centre) <= 1 / (level * level)).
  { intros p. rewrite (proj2 (proj2 (C60_translate 3 C (vec_of3 p) (vec_of3 p)))), V, M, N. fold centre.
    assert (LL : 0 < level * level) by nra. assert (LI : 0 < / (level * level)) by now apply Rinv_0_lt_compat.
    set (q := mahalanobis _ _ _). replace (1 / (level * level)) with (/ (level * level)) by (field; auto). split; intros H.
    - apply Rmult_le_reg_l with (level * level); auto. rewrite Rinv_r by lra. lra.
    - apply Rmult_le_compat_l with (r := level * level) in H; [|lra]. rewrite Rinv_r in H by lra. lra. }
  split; [exact P|]. intros p. rewrite !P.
  replace (vsub (vadd centre p) centre) with p by (apply vec3_eq; vunf; ring).
  replace (vsub (vsub centre p) centre) with (vneg p) by (apply vec3_eq; vunf; ring).
  assert (Q : mahalanobis (p_axes f) c (vneg p) = mahalanobis (p_axes f) c p).
  { unfold mahalanobis. assert (ND : forall a, dot a (vneg p) = - dot a p) by (intros []; destruct p; vunf; ring).
    rewrite !ND. unfold Rdiv. ring. }
  rewrite Q. tauto.
Qed.
(** So a higher level gives a smaller ellipsoid. *)
Theorem C136_level_shrinks : forall svd arr f cs level level' c C C' g g', lapack svd -> PCAOrientation svd arr None None = Ok f ->
  covariance_noise f = Some c -> 0 < vx c -> 0 < vy c -> 0 < vz c -> 0 < level -> level < level' ->
  as_conic level (run_calls f cs) = (Ok C, g) -> as_conic level' (run_calls f cs) = (Ok C', g') ->
  (forall p, contains 3 C' (vec_of3 p) false -> contains 3 C (vec_of3 p) false) /\
  exists p, contains 3 C (vec_of3 p) false /\ ~ contains 3 C' (vec_of3 p) false.
Proof.
  intros svd arr f cs l l' c C C' g g' L F CV C0 C1 C2 L0 LL E E'.
  destruct (C136_ellipsoid svd arr f cs l c L F CV C0 C1 C2 ltac:(lra)) as (D & h & ED & _ & P & _).
  destruct (C136_ellipsoid svd arr f cs l' c L F CV C0 C1 C2 ltac:(lra)) as (D' & h' & ED' & _ & P' & _).
  rewrite E in ED. rewrite E' in ED'. injection ED as <- <-. injection ED' as <- <-.
  assert (I : 1 / (l' * l') < 1 / (l * l)).
  { unfold Rdiv. rewrite !Rmult_1_l. apply Rinv_lt_contravar; [repeat apply Rmult_lt_0_compat; lra|].
    apply Rmult_gt_0_lt_compat; lra. }
  split.
  - intros p H. apply P. apply P' in H. lra.
  - set (centre := vscale (vx (p_s f) * vy (p_s f)) (p_normal f)) in *.
    destruct (fit_inv _ _ _ L F) as (_ & u & m & Hs & _). destruct (svd_v _ _ _ _ Hs) as (O00 & O11 & O22 & O01 & O02 & O12).
    exists (vadd centre (vscale (sqrt (vx c) / l) (r0 (p_axes f)))).
    assert (M : mahalanobis (p_axes f) c (vsub (vadd centre (vscale (sqrt (vx c) / l) (r0 (p_axes f)))) centre) = 1 / (l * l)).
    { replace (vsub (vadd centre (vscale (sqrt (vx c) / l) (r0 (p_axes f)))) centre) with (vscale (sqrt (vx c) / l) (r0 (p_axes f)))
        by (apply vec3_eq; vunf; ring).
      unfold mahalanobis. assert (DS : forall a k b, dot a (vscale k b) = k * dot a b) by (intros [] k []; vunf; ring).
      rewrite !DS, (dot_comm (r1 _) (r0 _)), (dot_comm (r2 _) (r0 _)), O00, O01, O02.
      replace (sqrt (vx c) / l * 1 * (sqrt (vx c) / l * 1)) with (sqrt (vx c) * sqrt (vx c) / (l * l)) by (field; lra).
      rewrite sqrt_sqrt by lra. field. lra. }
    split; [apply P; lra|]. intros H. apply P' in H. lra.
Qed.


(** the points (+-3, 0, 0), (0, +-2, 0), (0, 0, +-1) *)
Lemma axis_variances : exists f c, PCAOrientation LSvd.svd_ref (axis_data 3 2 1) None None = Ok f /\
  covariance_noise f = Some c /\ 0 < vx c /\ 0 < vy c /\ 0 < vz c.
Proof.
  destruct example_fit as (f & F & S & _). exists f.
  eexists. split; [exact F|]. split; [exact (covariance_noise_value _ _ _ lapack_ref F)|].
  rewrite S. assert (P2 : 0 < sqrt 2) by (apply sqrt_lt_R0; lra). cbn [vscale vx vy vz].
  assert (0 < INR (length (axis_data 3 2 1))) by (apply lt_0_INR; simpl; lia).
  repeat split; unfold Rdiv; repeat apply Rmult_lt_0_compat; try lra; now apply Rinv_0_lt_compat.
Qed.
Example C136_ex : exists f c C g, PCAOrientation LSvd.svd_ref (axis_data 3 2 1) None None = Ok f /\
  covariance_noise f = Some c /\ 0 < vx c /\ 0 < vy c /\ 0 < vz c /\ as_conic 2 (run_calls f []) = (Ok C, g).
Proof.
  destruct axis_variances as (f & c & F & CV & C0 & C1 & C2).
  destruct (C136_ellipsoid _ _ f [] 2 c lapack_ref F CV C0 C1 C2 ltac:(lra)) as (C & g & E & _).
  exists f, c, C, g. repeat split; auto.
Qed.

(** * C137: the error ellipse of a fit *)
Lemma iadd_mismatch : forall rows v, rows <> [] -> (forall r, In r rows -> length r <> length v) -> iadd_rows rows v = Raise ValueError.
Proof.
  intros [|r rows] v N H; [congruence|]. unfold iadd_rows. cbn [forallb].
  destruct (Nat.eqb_spec (length r) (length v)) as [e|e]; [|reflexivity]. exfalso. apply (H r); simpl; auto.
Qed.
(** Never an ellipse: for a fit with positive variances [PCAOrientation.error_ellipse]
    raises ValueError at every non-zero level, whatever was called before. *)
Theorem C137_raises : forall svd svdn arr f cs level c, lapack svd -> PCAOrientation svd arr None None = Ok f ->
  covariance_noise f = Some c -> 0 < vx c -> 0 < vy c -> 0 < vz c -> level <> 0 ->
  fst (pca_error_ellipse svdn level (run_calls f cs)) = Raise ValueError.
Proof.
  intros svd svdn arr f cs level c L F CV C0 C1 C2 LV.
  destruct (fit_inv _ _ _ L F) as (_ & u & m & Hs & _ & _ & _ & _ & _ & _ & D).
  pose proof (svd_v _ _ _ _ Hs) as O. pose proof (good_derived f D) as G.
  destruct (run_same cs f G) as (S & GR & A). set (r := run_calls f cs) in *.
  assert (OR : orthonormal (p_axes r)).
  { rewrite A. destruct (existsb _ _); auto. destruct (Rlt_dec _ _); auto. now apply orthonormal_neg. }
  assert (CR : covariance_noise r = Some c).
  { rewrite <- CV. unfold covariance_noise, rotated. rewrite (sf_arr _ _ S), (sf_s _ _ S), A.
    destruct (existsb _ _); auto. pose proof (flip_covariance f) as K. unfold flip_down_axes in K.
    destruct (Rlt_dec _ _); auto. }
  assert (KR : p_offset r = V3 0 0 (vx (p_s f) * vy (p_s f))) by (unfold r; rewrite step_offset; eapply fit_offset; eauto).
  clearbody r. assert (HZ : has_zero c = false) by (apply has_zero_false; repeat split; lra).
  assert (KP : vx (p_s f) * vy (p_s f) <> 0).
  { rewrite (covariance_noise_value _ _ _ L F) in CV. injection CV as <-. cbn [vscale vx vy vz] in *.
    intros Z. apply Rmult_integral in Z. destruct Z as [Z|Z]; rewrite Z in *; lra. }
  set (k := vx (p_s f) * vy (p_s f)) in *. clearbody k.
  destruct (as_conic_value r level _ c OR KR CR HZ) as (C & E & SY & V).
  set (n := r2 (p_axes (flip_down_axes r))) in *.
  assert (NZ : ~ veq 3 (polar_plane 3 C zero) zero).
  { intros Z. assert (CZ : forall i, (i < 3)%nat -> C i 3%nat = 0).
    { intros i I. specialize (Z i I). unfold polar_plane, mulv, augment, zero in Z. cbn [sumn Nat.ltb Nat.leb] in Z. lra. }
    assert (CZ' : forall i, (i < 3)%nat -> C 3%nat i = 0) by (intros i I; rewrite (SY 3%nat i) by lia; apply CZ; auto).
    pose proof (V (vscale k n)) as V1. pose proof (V (vneg (vscale k n))) as V2.
    assert (EV : value 3 C (vec_of3 (vneg (vscale k n))) = value 3 C (vec_of3 (vscale k n))).
    { unfold value. rewrite !sumn3, !CZ, !CZ' by lia. unfold vec_of3. destruct n. vunf. ring. }
    rewrite EV, V1 in V2. revert V2.
    replace (vsub (vscale k n) (vscale k n)) with vzero by (apply vec3_eq; vunf; ring).
    replace (vsub (vneg (vscale k n)) (vscale k n)) with (vscale (- (2 * k)) n) by (apply vec3_eq; vunf; ring).
    assert (DS : forall a q b, dot a (vscale q b) = q * dot a b) by (intros [] q []; vunf; ring).
    assert (DZ : forall a, dot a vzero = 0) by (intros []; vunf; ring).
    unfold mahalanobis. rewrite !DS, !DZ.
    assert (OG : orthonormal (p_axes (flip_down_axes r))).
    { unfold flip_down_axes. destruct (Rlt_dec (vz (r2 (p_axes r))) 0); auto. now apply orthonormal_neg. }
    destruct OG as (O00 & O11 & O22 & O01 & O02 & O12). fold n in O02, O12, O22 |- *. rewrite O02, O12, O22.
    intros X. assert (Y : level * level * (4 * (k * k) / vz c) = 0) by (unfold Rdiv in *; lra).
    assert (0 < level * level) by nra. assert (0 < k * k) by nra.
    assert (0 < 4 * (k * k) / vz c) by (apply Rdiv_lt_0_compat; lra). nra. }
  destruct (C66_projection C None SY NZ) as (con & tr & pt & _ & _ & EP & _).
  unfold pca_error_ellipse, ellipse_points. rewrite E. cbn [rbind]. rewrite EP. cbn [rbind fst].
  rewrite iadd_mismatch; [reflexivity| |].
  - intros Z. apply (f_equal (@length _)) in Z. rewrite map_length, linspace_length in Z. discriminate.
  - intros q I. apply in_map_iff in I. destruct I as (x & <- & _). rewrite !map_length, !seq_length. discriminate.
Qed.
Example C137_ex : exists f, PCAOrientation LSvd.svd_ref (axis_data 3 2 1) None None = Ok f /\
  forall svdn, fst (pca_error_ellipse svdn 1 f) = Raise ValueError.
Proof.
  destruct axis_variances as (f & c & F & CV & C0 & C1 & C2). exists f. split; auto. intros svdn.
  exact (C137_raises _ svdn _ f [] 1 c lapack_ref F CV C0 C1 C2 ltac:(lra)).
Qed.

Print Assumptions C136_ellipsoid.
Print Assumptions C136_level_shrinks.
Print Assumptions C137_raises.
