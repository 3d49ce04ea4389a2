(** Saved axes, weights and call histories: proofs for C20-C26, C89. *)
From Coq Require Import Reals Lra Lia List Psatz Permutation Arith.
From Verif Require Import RVec Trig SpecPlane MPca LSvd LPca LFit LAngles.
Import ListNotations.
Open Scope R_scope.

(** * Saved axes (C20-C22) *)
Lemma norm_col : forall s a b c, 0 <= s -> a * a + b * b + c * c = 1 ->
  norm (V3 (s * a) (s * b) (s * c)) = s.
Proof.
  intros s a b c Hs H. unfold norm, nrm2, dot; simpl.
  replace (s * a * (s * a) + s * b * (s * b) + s * c * (s * c)) with (s * s) by nra.
  now apply sqrt_sq_pos.
Qed.

Lemma col_norms_principal : forall f, orthonormal (p_axes f) ->
  0 <= vx (p_s f) -> 0 <= vy (p_s f) -> 0 <= vz (p_s f) ->
  col_norms (principal_axes f) = p_s f.
Proof.
  intros f O H0 H1 H2. apply orthonormal_T in O. destruct O as (h0 & h1 & h2 & _).
  unfold col_norms, principal_axes. destruct (p_axes f) as [[] [] []].
  destruct (p_s f) as [a b c]. unfold mT, vmul in *; simpl in *. unfold dot in *; simpl in *.
  apply vec3_eq; simpl; apply norm_col; auto; lra.
Qed.

Lemma vdiv_vmul : forall s v, vx s <> 0 -> vy s <> 0 -> vz s <> 0 -> vdiv (vmul s v) s = v.
Proof. intros [] [] H0 H1 H2; simpl in *; apply vec3_eq; unfold vdiv, vmul; simpl; field; auto. Qed.

Lemma load_principal : forall f, orthonormal (p_axes f) ->
  0 < vx (p_s f) -> 0 < vy (p_s f) -> 0 < vz (p_s f) ->
  load_saved_fit (principal_axes f) = Ok (None, p_s f, p_axes f).
Proof.
  intros f O H0 H1 H2. unfold load_saved_fit. rewrite col_norms_principal by (auto; lra).
  assert (Z : has_zero (p_s f) = false) by (apply has_zero_false; lra). rewrite Z.
  unfold principal_axes; simpl. rewrite !vdiv_vmul by lra. destruct (p_axes f); reflexivity.
Qed.

Definition forget_U (f : pca) : pca :=
  {| p_array := p_array f; p_mean := p_mean f; p_arr := p_arr f;
     p_weights := p_weights f; p_n := p_n f; p_U := None; p_s := p_s f;
     p_axes := p_axes f; p_offset := p_offset f; p_normal_own := p_normal_own f;
     p_strike := p_strike f; p_dip_dr := p_dip_dr f |}.

Lemma reload_ok : forall svd svd' arr f, lapack svd ->
  PCAOrientation svd arr None None = Ok f -> 0 < vz (p_s f) ->
  PCAOrientation svd' arr None (Some (principal_axes f)) = Ok (forget_U f) /\
  U (forget_U f) = U f.
Proof.
  intros svd svd' arr f HL HF Hp.
  destruct (fit_inv _ _ _ HL HF) as (Hn & u & m & Hs & Hm & Eu & Ea & Em & Earr & En & D).
  pose proof (svd_v _ _ _ _ Hs) as O. pose proof (svd_s01 _ _ _ _ Hs). pose proof (svd_s12 _ _ _ _ Hs).
  split.
  - unfold PCAOrientation. rewrite load_principal by (auto; lra). simpl. rewrite centered_length.
    unfold PCAOrientation, run_svd in HF. rewrite centered_length in HF.
    destruct (length arr <? 3)%nat; [discriminate|]. rewrite has_zero_ones in HF.
    destruct (svd _) as [[u' s'] v']. simpl in HF. injection HF as <-. reflexivity.
  - unfold U. simpl. rewrite Eu.
    assert (Z : has_zero (p_s f) = false) by (apply has_zero_false; lra). rewrite Z.
    f_equal. rewrite Ea, (svd_fact _ _ _ _ Hs), map_map.
    rewrite (map_ext _ (fun x => x)). { apply map_id. }
    intros x. rewrite mv_vm by auto. unfold vmul, vdiv; apply vec3_eq; simpl; field; lra.
Qed.

Lemma reload_fails : forall svd svd' arr f, lapack svd ->
  PCAOrientation svd arr None None = Ok f -> vz (p_s f) = 0 ->
  PCAOrientation svd' arr None (Some (principal_axes f)) = NonFinite.
Proof.
  intros svd svd' arr f HL HF Hp.
  destruct (fit_inv _ _ _ HL HF) as (Hn & u & m & Hs & _).
  pose proof (svd_s01 _ _ _ _ Hs). pose proof (svd_s12 _ _ _ _ Hs).
  unfold PCAOrientation, load_saved_fit.
  rewrite col_norms_principal by (try lra; exact (svd_v _ _ _ _ Hs)).
  assert (Z : has_zero (p_s f) = true).
  { unfold has_zero. destruct (Req_EM_T (vx (p_s f)) 0), (Req_EM_T (vy (p_s f)) 0), (Req_EM_T (vz (p_s f)) 0);
      auto; contradiction. }
  rewrite Z. reflexivity.
Qed.

(** third singular value zero iff coplanar *)
Definition coplanar (pts : list vec3) : Prop :=
  exists n d, unit3 n /\ forall p, In p pts -> dot n p = d.

Lemma ssd_zero : forall n d pts, sum_sq_dist n d pts = 0 <-> (forall p, In p pts -> dot n p = d).
Proof.
  intros n d pts. split.
  - intros H p Hp. assert (X := sumf_zero_all _ (sq_dist n d) pts). unfold sum_sq_dist in H.
    assert (Y : sq_dist n d p = 0). { apply X; auto. intros; apply Rle_0_sqr. }
    unfold sq_dist in Y. nra.
  - intros H. unfold sum_sq_dist. rewrite (sumf_ext _ _ (fun _ => 0)).
    + rewrite sumf_const; ring. + intros p Hp. unfold sq_dist. rewrite (H p Hp). ring.
Qed.

Lemma s3_zero_coplanar : forall svd arr f, lapack svd ->
  PCAOrientation svd arr None None = Ok f -> (vz (p_s f) = 0 <-> coplanar arr).
Proof.
  intros svd arr f HL HF.
  destruct (fit_inv _ _ _ HL HF) as (Hn & u & m & Hs & Hm & _ & _ & Em & _ & _ & D).
  destruct (tls_optimal _ _ _ HL HF) as (m' & Em' & Hm' & Hu & Hopt).
  pose proof (ssd_is_s3 _ _ _ HL HF m' Em') as S.
  split.
  - intros Z. exists (p_normal f), (dot (p_normal f) m'). split; auto.
    apply ssd_zero. rewrite S, Z. ring.
  - intros (n & d & Un & Hc). apply ssd_zero in Hc. specialize (Hopt n d Un). rewrite Hc, S in Hopt. nra.
Qed.

Lemma reload_iff : forall svd svd' arr f, lapack svd ->
  PCAOrientation svd arr None None = Ok f ->
  (PCAOrientation svd' arr None (Some (principal_axes f)) = NonFinite <-> coplanar arr).
Proof.
  intros svd svd' arr f HL HF. rewrite <- (s3_zero_coplanar _ _ _ HL HF). split.
  - intros E. destruct (fit_inv _ _ _ HL HF) as (Hn & u & m & Hs & _).
    pose proof (svd_s2 _ _ _ _ Hs). destruct (Req_EM_T (vz (p_s f)) 0) as [h|h]; auto.
    destruct (reload_ok svd svd' arr f HL HF ltac:(lra)) as [X _]. congruence.
  - now apply reload_fails with svd.
Qed.

(** * Weights (C23, C24) *)
Lemma is_svd_scale : forall a u s v k, 0 < k -> is_svd (map (fun p => vdiv p (V3 k k k)) a) u s v ->
  is_svd a u (vmul s (V3 k k k)) v.
Proof.
  intros a u s v k Hk []. constructor; auto; simpl; try nra.
  assert (E : a = map (vscale k) (map (fun p => vdiv p (V3 k k k)) a)).
  { rewrite map_map. rewrite (map_ext _ (fun p => p)). { now rewrite map_id. }
    intros []; unfold vscale, vdiv; apply vec3_eq; simpl; field; lra. }
  rewrite E, svd_fact, map_map. apply map_ext. intros []. destruct v as [[] [] []], s.
  apply vec3_eq; munf; ring.
Qed.

Lemma uniform_weights : forall svd svd' arr w f f', lapack svd -> lapack svd' -> 0 < w ->
  PCAOrientation svd arr (Some (V3 w w w)) None = Ok f ->
  PCAOrientation svd' arr None None = Ok f' ->
  p_s f = p_s f' /\ center f = center f' /\
  (exists u, U f = Some u /\ is_svd (centered_array f) u (p_s f) (p_axes f)) /\
  (vz (p_s f') < vy (p_s f') -> same_line (p_normal f) (p_normal f')).
Proof.
  intros svd svd' arr w f f' HL HL' Hw HF HF'.
  destruct (weighted_inv _ _ _ _ HL HF) as (Hn & _ & u & s & Hs & E1 & E2 & E3 & E4 & E5 & E6 & _ & D).
  destruct (fit_inv _ _ _ HL' HF') as (_ & u' & m' & Hs' & Hm & _ & _ & Em & _ & _ & D').
  apply is_svd_scale in Hs; auto. rewrite <- E1 in Hs.
  destruct (svd_compare _ _ _ _ _ _ _ _ mid 1 Hs' Hs orthonormal_id ltac:(lra)) as [ES N].
  { intros d e. rewrite !mv_id. ring. }
  split. { rewrite ES. vring. }
  split. { unfold center. rewrite E4, Em. now apply np_mean_spec. }
  split. { exists u. unfold U, centered_array. rewrite E2, E3. auto. }
  intros Hlt. specialize (N ltac:(lra) Hlt). rewrite mv_id in N.
  eapply same_line_trans. { apply normal_line; auto. }
  eapply same_line_trans. { apply same_line_sym. exact N. }
  apply same_line_sym, normal_line; auto.
Qed.

Lemma weighted_spec : forall svd arr w f, lapack svd ->
  PCAOrientation svd arr (Some w) None = Ok f ->
  exists u s, U f = Some u /\
    is_svd (map (fun p => vdiv p w) (centered_array f)) u s (p_axes f) /\
    p_s f = vmul s w.
Proof.
  intros svd arr w f HL HF.
  destruct (weighted_inv _ _ _ _ HL HF) as (Hn & _ & u & s & Hs & E1 & E2 & E3 & _).
  exists u, s. unfold U, centered_array. rewrite E2, E3. auto.
Qed.

Definition cross_data : list vec3 := [V3 2 0 0; V3 (-2) 0 0; V3 0 1 0; V3 0 (-1) 0].
Definition box_data : list vec3 :=
  [V3 2 0 0; V3 (-2) 0 0; V3 0 1 0; V3 0 (-1) 0; V3 0 0 1; V3 0 0 (-1)].

Lemma centered_id : forall a, a <> [] -> vsum a = vzero -> centered a = a.
Proof.
  intros a Hne H. assert (M : is_mean vzero a).
  { split; auto. rewrite H. vring. }
  rewrite (centered_mean vzero) by auto. rewrite (map_ext _ (fun p => p)). { apply map_id. }
  intros; vring.
Qed.

Lemma weighted_no_reconstruct : forall svd f u, lapack svd ->
  PCAOrientation svd cross_data (Some (V3 10 1 1)) None = Ok f -> U f = Some u ->
  ~ reconstructs u (p_s f) (p_axes f) (centered_array f).
Proof.
  intros svd f u HL HF HU HR.
  destruct (weighted_inv _ _ _ _ HL HF) as (Hn & _ & u' & s & Hs & E1 & E2 & E3 & _).
  unfold U in HU. rewrite E2 in HU. injection HU as ->.
  unfold centered_array in HR. rewrite E3 in *.
  assert (C : centered cross_data = cross_data).
  { apply centered_id. { discriminate. } unfold cross_data, vsum; simpl. apply vec3_eq; simpl; ring. }
  rewrite C in *.
  (* trace of the rescaled data *)
  pose proof (Q_trace _ _ _ _ Hs) as T. pose proof (svd_sq_order _ _ _ _ Hs) as (h0 & h1 & h2).
  (* trace of the data if the reconstruction held *)
  assert (T' : Q cross_data ex ex + Q cross_data ey ey + Q cross_data ez ez =
     vx (p_s f) * vx (p_s f) + vy (p_s f) * vy (p_s f) + vz (p_s f) * vz (p_s f)).
  { unfold reconstructs in HR. destruct Hs. unfold Q.
    assert (X : forall l, sumf (fun p => dot p ex * dot p ex) l + sumf (fun p => dot p ey * dot p ey) l
       + sumf (fun p => dot p ez * dot p ez) l = sumf nrm2 l).
    { intros l. rewrite <- !sumf_plus. apply sumf_ext. intros; vunf; ring. }
    rewrite X, <- HR, sumf_map.
    rewrite (sumf_ext _ _ (fun p => (vx (p_s f) * vx (p_s f)) * (vx p * vx p)
        + (vy (p_s f) * vy (p_s f)) * (vy p * vy p) + (vz (p_s f) * vz (p_s f)) * (vz p * vz p))).
    - rewrite !sumf_plus, !sumf_scal. rewrite svd_u00, svd_u11, svd_u22. ring.
    - intros p _. unfold nrm2. rewrite dot_vm_vm by auto. unfold dot, vmul; simpl. ring. }
  rewrite E1 in T'. unfold Q, cross_data, vdiv, dot, vmul, ex, ey, ez in T, T'. simpl in T, T'.
  nra.
Qed.

Lemma weighted_unsorted : forall svd f, lapack svd ->
  PCAOrientation svd box_data (Some (V3 1 10 1)) None = Ok f ->
  vx (p_s f) < vy (p_s f).
Proof.
  intros svd f HL HF.
  destruct (weighted_inv _ _ _ _ HL HF) as (Hn & _ & u' & s & Hs & E1 & E2 & E3 & _).
  assert (C : centered box_data = box_data).
  { apply centered_id. { discriminate. } unfold box_data, vsum; simpl. apply vec3_eq; simpl; ring. }
  rewrite C in *.
  pose proof (Q_trace _ _ _ _ Hs) as T.
  pose proof (Q_lower _ _ _ _ ey Hs ltac:(unfold nrm2; vunf; ring)) as L.
  destruct (Q_axes _ _ _ _ Hs) as (A0 & _ & _).
  destruct (svd_v _ _ _ _ Hs) as (o & _).
  destruct (r0 (p_axes f)) as [x y z]. unfold Q, box_data, vdiv, ex, ey, ez in *. simpl in *.
  unfold dot in *. simpl in *.
  assert (B : vx s * vx s <= 8) by nra.
  assert (S1 : 2 <= vy s * vy s) by nra.
  rewrite E1. unfold vmul; simpl. pose proof (svd_s12 _ _ _ _ Hs). pose proof (svd_s2 _ _ _ _ Hs).
  pose proof (svd_s01 _ _ _ _ Hs). nra.
Qed.

(** * Call histories (C25, C26, C89) *)
Definition flipping (c : call) : bool :=
  match c with CAsConic | CErrorEllipse | CNormalErrors => true | _ => false end.

(** what survives *)
Definition good (f : pca) : Prop := vz (r2 (p_axes f)) < 0 -> exists n, p_normal_own f = Some n.

Lemma good_derived : forall f, derived f -> good f.
Proof.
  intros f [E _] H. rewrite E. unfold derived_normal. destruct (Rlt_dec _ _); [|lra]. eexists; reflexivity.
Qed.

Record same_fit (f g : pca) : Prop := {
  sf_array : p_array g = p_array f;
  sf_mean : p_mean g = p_mean f;
  sf_arr : p_arr g = p_arr f;
  sf_n : p_n g = p_n f;
  sf_s : p_s g = p_s f;
  sf_normal : p_normal g = p_normal f;
  sf_strike : p_strike g = p_strike f;
  sf_dip_dr : p_dip_dr g = p_dip_dr f }.

Lemma step_same : forall f c, good f -> same_fit f (step f c) /\ good (step f c) /\
  p_axes (step f c) = (if flipping c then
     if Rlt_dec (vz (r2 (p_axes f))) 0 then mneg (p_axes f) else p_axes f else p_axes f).
Proof.
  intros f c G.
  assert (FL : same_fit f (flip_down_axes f) /\ good (flip_down_axes f) /\
    p_axes (flip_down_axes f) = if Rlt_dec (vz (r2 (p_axes f))) 0 then mneg (p_axes f) else p_axes f).
  { unfold flip_down_axes. destruct (Rlt_dec _ _) as [h|h].
    - split; [|split; auto].
      + destruct (G h) as [n E]. constructor; auto. unfold p_normal; simpl. rewrite E. auto.
      + intros h'. simpl in h'. lra.
    - split; [constructor; auto | auto]. }
  assert (SF : same_fit f f) by (constructor; auto).
  destruct c; simpl; auto.
  unfold read_U. destruct (p_U f); [auto|]. split; [constructor; auto | split; auto].
Qed.

Lemma same_fit_trans : forall f g h, same_fit f g -> same_fit g h -> same_fit f h.
Proof. intros f g h [] []; constructor; congruence. Qed.

Lemma run_same : forall cs f, good f -> same_fit f (run_calls f cs) /\ good (run_calls f cs) /\
  p_axes (run_calls f cs) = (if existsb flipping cs then
     if Rlt_dec (vz (r2 (p_axes f))) 0 then mneg (p_axes f) else p_axes f else p_axes f).
Proof.
  induction cs as [|c cs IH]; intros f G; simpl.
  - split; [constructor; auto | auto].
  - destruct (step_same f c G) as (S & G' & A). unfold run_calls in IH.
    destruct (IH (step f c) G') as (S2 & G2 & A2). simpl.
    split; [eapply same_fit_trans; eauto|]. split; auto.
    unfold run_calls in *. simpl. rewrite A2, A.
    destruct (flipping c); simpl; auto.
    destruct (Rlt_dec (vz (r2 (p_axes f))) 0) as [h|h].
    + simpl. destruct (Rlt_dec (- vz (r2 (p_axes f))) 0); [lra|]. destruct (existsb _ _); auto.
    + destruct (existsb _ _); auto. destruct (Rlt_dec (vz (r2 (p_axes f))) 0); [contradiction | auto].
Qed.

Lemma residual_mneg : forall v p,
  vm (V3 (vx (mv (mneg v) p)) (vy (mv (mneg v) p)) 0) (mneg v) = vm (V3 (vx (mv v p)) (vy (mv v p)) 0) v.
Proof. intros [[] [] []] []; apply vec3_eq; munf; ring. Qed.

Lemma history_geometry : forall f cs, good f -> orthonormal (p_axes f) ->
  let g := run_calls f cs in
  p_normal g = p_normal f /\ center g = center f /\ residuals g = residuals f /\
  eigenvalues g = eigenvalues f /\ p_s g = p_s f /\
  (p_axes g = p_axes f \/ p_axes g = mneg (p_axes f)) /\
  (forall s d, strike_dip f = Some (s, d) -> exists s', strike_dip g = Some (s', d) /\ (d <> 0 -> s' = s)).
Proof.
  intros f cs G O g. destruct (run_same cs f G) as (S & _ & A). fold g in S, A. destruct S.
  assert (AX : p_axes g = p_axes f \/ (p_axes g = mneg (p_axes f) /\ vz (r2 (p_axes f)) < 0)).
  { rewrite A. destruct (existsb _ _); auto. destruct (Rlt_dec _ _); auto. }
  repeat split; auto.
  - unfold residuals. rewrite sf_arr0. destruct AX as [-> | [-> _]]; auto.
    apply map_ext. intros p. now rewrite residual_mneg.
  - unfold eigenvalues. rewrite sf_n0, sf_s0. reflexivity.
  - destruct AX as [-> | [-> _]]; auto.
  - intros s d E. unfold strike_dip in *. destruct AX as [-> | [-> Hz]]. { exists s; auto. }
    simpl. pose proof (orthonormal_unit2 _ O) as Un.
    assert (Un' : unit3 (vneg (r2 (p_axes f)))) by (unfold unit3; rewrite nrm2_neg; exact Un).
    destruct (strike_dip_of_spec _ Un') as (s' & d' & E' & _).
    destruct (strike_dip_sign _ _ _ _ _ Un E E') as (D & S1 & _).
    exists s'. subst d'. split; auto. intros N.
    destruct (strike_dip_of_spec _ Un) as (s0 & d0 & E0 & B & _). rewrite E in E0. injection E0 as <- <-.
    apply S1. split; [lra|]. destruct (Rlt_dec d 90); auto.
    assert (d = 90) by lra. apply (dip_90_iff _ _ _ Un E) in H. lra.
Qed.

(** C26 *)
Definition mzero : mat3 := M3 vzero vzero vzero.

Lemma vmul_neg_r : forall a b, vmul a (vneg b) = vneg (vmul a b).
Proof. vring. Qed.
Lemma history_hash_value : forall f cs, good f ->
  principal_axes (run_calls f cs) =
  if existsb flipping cs then
    if Rlt_dec (vz (r2 (p_axes f))) 0 then mneg (principal_axes f) else principal_axes f
  else principal_axes f.
Proof.
  intros f cs G. destruct (run_same cs f G) as (S & _ & A). unfold principal_axes.
  rewrite (sf_s _ _ S), A. destruct (existsb _ _); auto. destruct (Rlt_dec _ _); auto.
  unfold mneg; simpl. rewrite !vmul_neg_r. reflexivity.
Qed.

Lemma mneg_fix : forall m, mneg m = m -> m = mzero.
Proof.
  intros [[] [] []] H. unfold mneg, vneg in H; simpl in H. injection H as ? ? ? ? ? ? ? ? ?.
  unfold mzero, vzero. f_equal; f_equal; lra.
Qed.
Lemma principal_zero : forall f, orthonormal (p_axes f) ->
  (principal_axes f = mzero <-> p_s f = vzero).
Proof.
  intros f O. split; intros H.
  - apply orthonormal_T in O. destruct O as (h0 & h1 & h2 & _).
    unfold principal_axes, mzero, vzero in H. destruct (p_axes f) as [[] [] []], (p_s f) as [a b c].
    unfold vmul, mT, dot in *; simpl in *. injection H as ? ? ? ? ? ? ? ? ?.
    unfold vzero. f_equal; nra.
  - unfold principal_axes, mzero. rewrite H. f_equal; vring.
Qed.

Lemma history_hash_iff : forall f cs, good f -> orthonormal (p_axes f) -> existsb flipping cs = true ->
  (principal_axes (run_calls f cs) = principal_axes f <->
   0 <= vz (r2 (p_axes f)) \/ p_s f = vzero).
Proof.
  intros f cs G O E. rewrite history_hash_value, E by auto.
  destruct (Rlt_dec _ _) as [h|h].
  - split.
    + intros X. apply mneg_fix in X. right. now apply principal_zero.
    + intros [X|X]; [lra|]. apply principal_zero in X; auto. rewrite X. unfold mneg, mzero, vneg, vzero; simpl.
      rewrite Ropp_0. reflexivity.
  - split; auto. intros _. left. lra.
Qed.

Lemma history_hash_stable : forall f cs cs', good f -> existsb flipping cs = true ->
  principal_axes (run_calls f (cs ++ cs')) = principal_axes (run_calls f cs).
Proof.
  intros f cs cs' G E. rewrite !history_hash_value by auto.
  rewrite existsb_app, E. simpl. reflexivity.
Qed.

(** C89: the cached U is not flipped with the axes *)
Lemma history_U : forall cs f u, p_U f = Some u -> p_U (run_calls f cs) = Some u.
Proof.
  unfold run_calls. induction cs as [|c cs IH]; intros f u E; simpl; auto. apply IH.
  assert (F : p_U (flip_down_axes f) = Some u) by (unfold flip_down_axes; destruct (Rlt_dec _ _); auto).
  destruct c; simpl; auto. unfold read_U. rewrite E. auto.
Qed.
Lemma history_reconstruct : forall svd arr f cs, lapack svd ->
  PCAOrientation svd arr None None = Ok f ->
  let g := run_calls f cs in
  exists u, U g = Some u /\ reconstructs u (p_s g) (p_axes g)
    (if existsb flipping cs then
       if Rlt_dec (vz (r2 (p_axes f))) 0 then map vneg (centered_array g) else centered_array g
     else centered_array g).
Proof.
  intros svd arr f cs HL HF g.
  destruct (fit_reconstructs _ _ _ HL HF) as (u & EU & _ & HR).
  destruct (fit_inv _ _ _ HL HF) as (_ & u' & m & Hs & _ & Eu & _ & _ & _ & _ & D).
  destruct (run_same cs f (good_derived f D)) as (S & _ & A). fold g in S, A.
  unfold U in EU. rewrite Eu in EU. injection EU as ->.
  exists u. split. { unfold U. unfold g. rewrite (history_U cs f u Eu). auto. }
  unfold centered_array in *. rewrite (sf_arr _ _ S), (sf_s _ _ S), A. unfold reconstructs in *.
  destruct (existsb _ _); auto. destruct (Rlt_dec _ _); auto.
  rewrite <- HR, map_map. apply map_ext. intros []. destruct (p_axes f) as [[] [] []], (p_s f).
  apply vec3_eq; munf; ring.
Qed.
