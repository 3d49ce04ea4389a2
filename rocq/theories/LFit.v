(** Proofs for the fitting properties C01-C10, C17-C26. *)
From Coq Require Import Reals Lra Lia List Psatz Permutation Arith.
From Verif Require Import RVec Trig SpecPlane MPca LSvd LPca.
Import ListNotations.
Open Scope R_scope.

Section OneFit.
Variables (svd : svd_fn) (arr : list vec3) (f : pca).
Hypothesis HL : lapack svd.
Hypothesis HF : PCAOrientation svd arr None None = Ok f.

Lemma tls_optimal :
  exists m, center f = Some m /\ is_mean m arr /\ unit3 (p_normal f) /\
  forall n d, unit3 n ->
    sum_sq_dist (p_normal f) (dot (p_normal f) m) arr <= sum_sq_dist n d arr.
Proof.
  destruct (fit_inv _ _ _ HL HF) as (Hn & u & m & Hs & Hm & _ & _ & Em & _ & _ & D).
  exists m. pose proof (svd_v _ _ _ _ Hs) as O.
  split; [exact Em|]. split; auto. split. { now apply normal_unit. }
  intros n d Hu. rewrite !(ssd_split _ _ m) by auto.
  rewrite (same_line_Q _ _ _ (normal_line f D)).
  destruct (Q_axes _ _ _ _ Hs) as (_ & _ & ->).
  pose proof (Q_lower _ _ _ _ n Hs Hu).
  pose proof (pos_INR (length arr)).
  assert (0 <= INR (length arr) * ((dot n m - d) * (dot n m - d))) by (apply Rmult_le_pos; [assumption | apply Rle_0_sqr]).
  lra.
Qed.

Lemma tls_unique : vz (p_s f) < vy (p_s f) ->
  forall m n d, center f = Some m -> unit3 n ->
    sum_sq_dist n d arr <= sum_sq_dist (p_normal f) (dot (p_normal f) m) arr ->
    same_line n (p_normal f) /\ d = dot n m.
Proof.
  intros Hlt m n d Em Hu Hle.
  destruct (fit_inv _ _ _ HL HF) as (Hn & u & m' & Hs & Hm & _ & _ & Em' & _ & _ & D).
  unfold center in Em. rewrite Em' in Em. injection Em as <-.
  rewrite !(ssd_split _ _ m') in Hle by auto.
  rewrite (same_line_Q _ _ _ (normal_line f D)) in Hle.
  destruct (Q_axes _ _ _ _ Hs) as (_ & _ & E2). rewrite E2 in Hle.
  pose proof (Q_lower _ _ _ _ n Hs Hu) as HQ.
  assert (P : 0 < INR (length arr)) by (apply lt_0_INR; lia).
  assert (S0 : INR (length arr) * ((dot n m' - d) * (dot n m' - d)) <= 0) by nra.
  assert (S1 : 0 <= (dot n m' - d) * (dot n m' - d)) by apply Rle_0_sqr.
  assert (S2 : 0 <= INR (length arr) * ((dot n m' - d) * (dot n m' - d))) by nra.
  split.
  - apply same_line_trans with (r2 (p_axes f)).
    + apply (Q_min_unique _ _ _ _ _ Hs); auto. nra.
    + apply same_line_sym, normal_line; auto.
  - assert ((dot n m' - d) * (dot n m' - d) = 0) by nra. nra.
Qed.

Lemma ssd_is_s3 : forall m, center f = Some m ->
  sum_sq_dist (p_normal f) (dot (p_normal f) m) arr = vz (p_s f) * vz (p_s f).
Proof.
  intros m Em.
  destruct (fit_inv _ _ _ HL HF) as (Hn & u & m' & Hs & Hm & _ & _ & Em' & _ & _ & D).
  unfold center in Em. rewrite Em' in Em. injection Em as <-.
  rewrite (ssd_split _ _ m') by auto.
  rewrite (same_line_Q _ _ _ (normal_line f D)).
  destruct (Q_axes _ _ _ _ Hs) as (_ & _ & ->). ring.
Qed.

Lemma residual_one : forall v p, orthonormal v ->
  vsub p (vm (V3 (dot (r0 v) p) (dot (r1 v) p) 0) v) = vscale (dot (r2 v) p) (r2 v).
Proof.
  intros v p O. rewrite <- (orthonormal_expand v p O) at 1.
  unfold mv, vm; simpl. vring.
Qed.

Lemma residuals_perp : forall m, center f = Some m ->
  Forall2 (fun p r => (exists k, r = vscale k (p_normal f)) /\
                      dot (p_normal f) (vsub (vsub p m) r) = 0) arr (residuals f).
Proof.
  intros m Em.
  destruct (fit_inv _ _ _ HL HF) as (Hn & u & m' & Hs & Hm & _ & Ea & Em' & _ & _ & D).
  unfold center in Em. rewrite Em' in Em. injection Em as <-.
  pose proof (svd_v _ _ _ _ Hs) as O.
  unfold residuals. rewrite Ea, (centered_mean m') by auto. rewrite map_map.
  assert (G : forall l : list vec3, Forall2 (fun p r => (exists k, r = vscale k (p_normal f)) /\
     dot (p_normal f) (vsub (vsub p m') r) = 0) l
     (map (fun x => let q := mv (p_axes f) (vsub x m') in
        vsub (vsub x m') (vm (V3 (vx q) (vy q) 0) (p_axes f))) l)).
  { induction l as [|p l IH]; simpl; constructor; auto. clear IH.
    rewrite residual_one by auto. set (q := vsub p m').
    pose proof (orthonormal_unit2 _ O) as U2.
    destruct (normal_line f D) as [E|E]; rewrite E.
    - split. { eexists; reflexivity. }
      rewrite dot_sub_r, dot_scale_r. unfold unit3, nrm2 in U2. rewrite U2. ring.
    - split. { exists (- dot (r2 (p_axes f)) q). vring. }
      rewrite dot_neg_l, dot_sub_r, dot_scale_r. unfold unit3, nrm2 in U2. rewrite U2. ring. }
  apply G.
Qed.

Lemma residuals_ss : sumf nrm2 (residuals f) = vz (p_s f) * vz (p_s f).
Proof.
  destruct (fit_inv _ _ _ HL HF) as (Hn & u & m' & Hs & Hm & _ & Ea & Em' & _ & _ & D).
  pose proof (svd_v _ _ _ _ Hs) as O.
  destruct (Q_axes _ _ _ _ Hs) as (_ & _ & <-).
  unfold residuals. rewrite Ea, sumf_map. unfold Q. apply sumf_ext. intros p _.
  unfold mv; simpl. rewrite residual_one by auto. rewrite nrm2_scale.
  pose proof (orthonormal_unit2 _ O) as U2. unfold unit3 in U2. rewrite U2, (dot_comm p). ring.
Qed.

(** C17 *)
Lemma rotated_isometry : forall p q, In p (p_arr f) -> In q (p_arr f) ->
  norm (vsub (mv (p_axes f) p) (mv (p_axes f) q)) = norm (vsub p q).
Proof.
  intros p q _ _. destruct (fit_inv _ _ _ HL HF) as (Hn & u & m' & Hs & _).
  pose proof (svd_v _ _ _ _ Hs) as O.
  assert (E : vsub (mv (p_axes f) p) (mv (p_axes f) q) = mv (p_axes f) (vsub p q))
    by (destruct (p_axes f) as [[] [] []], p, q; apply vec3_eq; munf; ring).
  rewrite E. unfold norm, nrm2. rewrite dot_mv_mv; auto.
Qed.

Lemma rotated_back : map (fun q => vm q (p_axes f)) (rotated f) = centered_array f.
Proof.
  destruct (fit_inv _ _ _ HL HF) as (Hn & u & m' & Hs & _).
  pose proof (svd_v _ _ _ _ Hs) as O.
  unfold rotated, centered_array. rewrite map_map.
  rewrite (map_ext _ (fun p => p)). { apply map_id. } intros; now apply orthonormal_expand.
Qed.

Lemma rotated_moments :
  sumf (fun q => vx q * vx q) (rotated f) = vx (p_s f) * vx (p_s f) /\
  sumf (fun q => vy q * vy q) (rotated f) = vy (p_s f) * vy (p_s f) /\
  sumf (fun q => vz q * vz q) (rotated f) = vz (p_s f) * vz (p_s f) /\
  sumf (fun q => vx q * vy q) (rotated f) = 0 /\
  sumf (fun q => vx q * vz q) (rotated f) = 0 /\
  sumf (fun q => vy q * vz q) (rotated f) = 0.
Proof.
  destruct (fit_inv _ _ _ HL HF) as (Hn & u & m' & Hs & Hm & _ & Ea & _).
  destruct (Q_axes _ _ _ _ Hs) as (A0 & A1 & A2).
  destruct (Q_offdiag _ _ _ _ Hs) as (B0 & B1 & B2).
  unfold rotated. rewrite Ea. rewrite !sumf_map.
  unfold Q in *. unfold mv; simpl.
  rewrite <- A0, <- A1, <- A2.
  repeat split; [| | | rewrite <- B0 | rewrite <- B1 | rewrite <- B2];
    apply sumf_ext; intros p _; rewrite !(dot_comm p); reflexivity.
Qed.

(** C18 *)
Lemma n_ge3 : (3 <= p_n f)%nat.
Proof. destruct (fit_inv _ _ _ HL HF) as (Hn & u & m' & _ & _ & _ & _ & _ & _ & E & _). lia. Qed.

Lemma eig_some : eigenvalues f = Some (V3 (vx (p_s f) * vx (p_s f) / (INR (p_n f) - 1))
   (vy (p_s f) * vy (p_s f) / (INR (p_n f) - 1)) (vz (p_s f) * vz (p_s f) / (INR (p_n f) - 1))).
Proof.
  pose proof n_ge3. unfold eigenvalues.
  assert (E : IZR (Z.of_nat (p_n f) - 1) = INR (p_n f) - 1) by (rewrite minus_IZR, <- INR_IZR_INZ; lra).
  rewrite E. destruct (Req_EM_T _ _) as [h|h]; auto. exfalso.
  assert (INR 3 <= INR (p_n f)) by (apply le_INR; auto). simpl in *. lra.
Qed.

Lemma var_along_Q : forall d m, is_mean m arr -> (3 <= length arr)%nat ->
  var_along d arr = Q (centered arr) d d / (INR (length arr) - 1).
Proof.
  intros d m Hm Hn. unfold var_along, sample_var. rewrite map_length.
  assert (P : 0 < INR (length arr)) by (apply lt_0_INR; lia).
  assert (M : sample_mean (map (dot d) arr) = dot d m).
  { unfold sample_mean. rewrite map_length, sumf_map.
    rewrite (sumf_ext _ _ (fun p => dot p d)) by (intros; apply dot_comm).
    rewrite dot_vsum. destruct Hm as [_ <-]. rewrite dot_scale_l, (dot_comm m). field. lra. }
  rewrite M, sumf_map. f_equal. unfold Q. rewrite (centered_mean m) by auto. rewrite sumf_map.
  apply sumf_ext. intros p _. rewrite dot_sub_l, !(dot_comm _ d). ring.
Qed.

Lemma eig_is_var : exists e, eigenvalues f = Some e /\
  vx e = var_along (r0 (p_axes f)) arr /\ vy e = var_along (r1 (p_axes f)) arr /\
  vz e = var_along (r2 (p_axes f)) arr /\
  0 <= vz e <= vy e /\ vy e <= vx e /\
  vx e + vy e + vz e = var_along ex arr + var_along ey arr + var_along ez arr.
Proof.
  pose proof eig_some as E. eexists. split; [exact E|]. simpl.
  destruct (fit_inv _ _ _ HL HF) as (Hn & u & m' & Hs & Hm & _ & Ea & _ & _ & En & _).
  rewrite !(var_along_Q _ m') by auto. rewrite En.
  destruct (Q_axes _ _ _ _ Hs) as (-> & -> & ->).
  assert (P : 0 < INR (length arr) - 1).
  { assert (INR 3 <= INR (length arr)) by (apply le_INR; auto). simpl in *. lra. }
  pose proof (svd_sq_order _ _ _ _ Hs) as (h0 & h1 & h2).
  pose proof (Q_trace _ _ _ _ Hs) as T.
  assert (I : 0 < / (INR (length arr) - 1)) by (apply Rinv_0_lt_compat; auto).
  repeat split; unfold Rdiv; try nra.
Qed.

(** C19 *)
Lemma first_axis_max : forall d, unit3 d -> var_along d arr <= var_along (r0 (p_axes f)) arr.
Proof.
  intros d Hd.
  destruct (fit_inv _ _ _ HL HF) as (Hn & u & m' & Hs & Hm & _).
  rewrite !(var_along_Q _ m') by auto. destruct (Q_axes _ _ _ _ Hs) as (-> & _ & _).
  assert (P : 0 < INR (length arr) - 1).
  { assert (INR 3 <= INR (length arr)) by (apply le_INR; auto). simpl in *. lra. }
  apply Rmult_le_compat_r. { left; apply Rinv_0_lt_compat; auto. }
  apply (Q_upper _ _ _ _ _ Hs); auto.
Qed.
Lemma second_axis_max : forall d, unit3 d -> dot d (r0 (p_axes f)) = 0 ->
  var_along d arr <= var_along (r1 (p_axes f)) arr.
Proof.
  intros d Hd H0.
  destruct (fit_inv _ _ _ HL HF) as (Hn & u & m' & Hs & Hm & _).
  rewrite !(var_along_Q _ m') by auto. destruct (Q_axes _ _ _ _ Hs) as (_ & -> & _).
  assert (P : 0 < INR (length arr) - 1).
  { assert (INR 3 <= INR (length arr)) by (apply le_INR; auto). simpl in *. lra. }
  apply Rmult_le_compat_r. { left; apply Rinv_0_lt_compat; auto. }
  rewrite (Q_svd _ _ _ _ _ _ Hs), (dot_comm _ d), H0.
  pose proof (parseval _ d (svd_v _ _ _ _ Hs)) as Pv. rewrite (dot_comm _ d), H0 in Pv.
  unfold unit3 in Hd. rewrite Hd in Pv.
  pose proof (svd_sq_order _ _ _ _ Hs) as (h0 & h1 & h2). nra.
Qed.

(** C20 *)
Definition reconstructs (u : list vec3) (s : vec3) (v : mat3) (a : list vec3) : Prop :=
  map (fun ui => vm (vmul ui s) v) u = a.
Definition orthonormal_cols (u : list vec3) : Prop :=
  sumf (fun p => vx p * vx p) u = 1 /\ sumf (fun p => vy p * vy p) u = 1 /\
  sumf (fun p => vz p * vz p) u = 1 /\ sumf (fun p => vx p * vy p) u = 0 /\
  sumf (fun p => vx p * vz p) u = 0 /\ sumf (fun p => vy p * vz p) u = 0.

Lemma fit_reconstructs : exists u, U f = Some u /\ orthonormal_cols u /\
  reconstructs u (p_s f) (p_axes f) (centered_array f).
Proof.
  destruct (fit_inv _ _ _ HL HF) as (Hn & u & m' & Hs & Hm & Eu & Ea & _).
  exists u. unfold U, centered_array. rewrite Eu, Ea. destruct Hs. repeat split; auto.
  unfold reconstructs. auto.
Qed.
End OneFit.

(** C03 *)
Lemma translation : forall svd arr w ax t,
  PCAOrientation svd (map (vadd t) arr) w ax =
  match PCAOrientation svd arr w ax with
  | Ok f => Ok {| p_array := map (vadd t) (p_array f); p_mean := option_map (vadd t) (p_mean f);
        p_arr := p_arr f; p_weights := p_weights f; p_n := p_n f; p_U := p_U f; p_s := p_s f;
        p_axes := p_axes f; p_offset := p_offset f; p_normal_own := p_normal_own f;
        p_strike := p_strike f; p_dip_dr := p_dip_dr f |}
  | Raise e => Raise e
  | NonFinite => NonFinite
  end.
Proof.
  intros svd arr w ax t. unfold PCAOrientation. rewrite centered_shift.
  assert (M : np_mean (map (vadd t) arr) = option_map (vadd t) (np_mean arr)).
  { destruct arr as [|p a]; auto. destruct (mean_exists (p :: a)) as [m Hm]; [discriminate|].
    pose proof (mean_shift m t _ Hm) as H. apply np_mean_spec in H, Hm. rewrite H, Hm. reflexivity. }
  rewrite M.
  destruct ax as [ax|]; [destruct (load_saved_fit ax) as [[[u s] v]|e|] |
    destruct (run_svd svd (centered arr) _) as [[[u s] v]|e|]]; simpl; reflexivity.
Qed.

(** C06-C08: two fits compared *)
Lemma two_fits : forall svd1 svd2 arr1 arr2 f1 f2 m k,
  lapack svd1 -> lapack svd2 ->
  PCAOrientation svd1 arr1 None None = Ok f1 -> PCAOrientation svd2 arr2 None None = Ok f2 ->
  orthonormal m -> 0 < k ->
  (forall d e, Q (centered arr2) (mv m d) (mv m e) = k * k * Q (centered arr1) d e) ->
  p_s f2 = vscale k (p_s f1) /\
  (vz (p_s f1) < vy (p_s f1) -> same_line (mv m (p_normal f1)) (p_normal f2)).
Proof.
  intros svd1 svd2 arr1 arr2 f1 f2 m k L1 L2 F1 F2 Hm Hk HQ.
  destruct (fit_inv _ _ _ L1 F1) as (_ & u1 & m1 & S1 & _ & _ & _ & _ & _ & _ & D1).
  destruct (fit_inv _ _ _ L2 F2) as (_ & u2 & m2 & S2 & _ & _ & _ & _ & _ & _ & D2).
  destruct (svd_compare _ _ _ _ _ _ _ _ m k S1 S2 Hm ltac:(lra) HQ) as [E N].
  split; auto. intros Hlt. specialize (N Hk Hlt).
  apply same_line_trans with (mv m (r2 (p_axes f1))).
  - destruct (normal_line f1 D1) as [-> | ->]; [left; auto | right].
    destruct m as [[] [] []], (r2 (p_axes f1)); apply vec3_eq; munf; ring.
  - eapply same_line_trans; [exact N|]. apply same_line_sym, normal_line; auto.
Qed.

Lemma mv_id : forall d, mv mid d = d.
Proof. intros []; apply vec3_eq; munf; ring. Qed.

Lemma Q_perm : forall a b d e, Permutation a b -> Q a d e = Q b d e.
Proof. intros. unfold Q. now apply sumf_perm. Qed.

Lemma perm_fits : forall svd1 svd2 arr1 arr2 f1 f2,
  lapack svd1 -> lapack svd2 -> Permutation arr1 arr2 ->
  PCAOrientation svd1 arr1 None None = Ok f1 -> PCAOrientation svd2 arr2 None None = Ok f2 ->
  p_s f2 = p_s f1 /\ p_n f2 = p_n f1 /\ center f2 = center f1 /\
  (vz (p_s f1) < vy (p_s f1) -> same_line (p_normal f1) (p_normal f2)).
Proof.
  intros svd1 svd2 arr1 arr2 f1 f2 L1 L2 P F1 F2.
  destruct (two_fits svd1 svd2 arr1 arr2 f1 f2 mid 1 L1 L2 F1 F2 orthonormal_id ltac:(lra)) as [E N].
  { intros d e. rewrite !mv_id, <- (Q_perm _ _ d e (centered_perm _ _ P)). ring. }
  destruct (fit_inv _ _ _ L1 F1) as (_ & _ & m1 & _ & M1 & _ & _ & C1 & _ & n1 & _).
  destruct (fit_inv _ _ _ L2 F2) as (_ & _ & m2 & _ & M2 & _ & _ & C2 & _ & n2 & _).
  split. { rewrite E. vring. } split. { rewrite n1, n2. symmetry; now apply Permutation_length. }
  split. { unfold center. rewrite C1, C2. f_equal. eapply mean_unique; [exact M2|]. eapply mean_perm; eauto. }
  intros H. specialize (N H). rewrite mv_id in N. auto.
Qed.

Lemma rot_fits : forall svd1 svd2 arr f1 f2 m,
  lapack svd1 -> lapack svd2 -> orthonormal m ->
  PCAOrientation svd1 arr None None = Ok f1 ->
  PCAOrientation svd2 (map (mv m) arr) None None = Ok f2 ->
  p_s f2 = p_s f1 /\ p_n f2 = p_n f1 /\ center f2 = option_map (mv m) (center f1) /\
  (vz (p_s f1) < vy (p_s f1) -> same_line (mv m (p_normal f1)) (p_normal f2)).
Proof.
  intros svd1 svd2 arr f1 f2 m L1 L2 Hm F1 F2.
  destruct (two_fits svd1 svd2 arr _ f1 f2 m 1 L1 L2 F1 F2 Hm ltac:(lra)) as [E N].
  { intros d e. rewrite centered_mv, Q_map_mv.
    assert (X : forall w, vm (mv m w) m = w) by (intros; now apply orthonormal_expand).
    rewrite !X. ring. }
  destruct (fit_inv _ _ _ L1 F1) as (_ & _ & m1 & _ & M1 & _ & _ & C1 & _ & n1 & _).
  destruct (fit_inv _ _ _ L2 F2) as (_ & _ & m2 & _ & M2 & _ & _ & C2 & _ & n2 & _).
  split. { rewrite E. vring. } split. { rewrite n1, n2. apply map_length. }
  split; auto. unfold center. rewrite C1, C2. simpl. f_equal.
  eapply mean_unique; [exact M2|]. now apply mean_mv.
Qed.

Lemma scale_fits : forall svd1 svd2 arr f1 f2 k,
  lapack svd1 -> lapack svd2 -> 0 < k ->
  PCAOrientation svd1 arr None None = Ok f1 ->
  PCAOrientation svd2 (map (vscale k) arr) None None = Ok f2 ->
  p_s f2 = vscale k (p_s f1) /\ p_n f2 = p_n f1 /\ center f2 = option_map (vscale k) (center f1) /\
  (vz (p_s f1) < vy (p_s f1) -> same_line (p_normal f1) (p_normal f2)).
Proof.
  intros svd1 svd2 arr f1 f2 k L1 L2 Hk F1 F2.
  destruct (two_fits svd1 svd2 arr _ f1 f2 mid k L1 L2 F1 F2 orthonormal_id Hk) as [E N].
  { intros d e. rewrite !mv_id, centered_scale. unfold Q. rewrite sumf_map, <- sumf_scal.
    apply sumf_ext. intros; rewrite !dot_scale_l; ring. }
  destruct (fit_inv _ _ _ L1 F1) as (_ & _ & m1 & _ & M1 & _ & _ & C1 & _ & n1 & _).
  destruct (fit_inv _ _ _ L2 F2) as (_ & _ & m2 & _ & M2 & _ & _ & C2 & _ & n2 & _).
  split; auto. split. { rewrite n1, n2. apply map_length. }
  split. { unfold center. rewrite C1, C2. simpl. f_equal. eapply mean_unique; [exact M2|]. now apply mean_scale. }
  intros H. specialize (N H). rewrite mv_id in N. auto.
Qed.

(** equal when not vertical: both normals point up *)
Lemma same_line_up : forall a b, same_line a b -> 0 < vz a -> 0 <= vz b -> a = b.
Proof. intros a b [-> | ->] H1 H2; auto. unfold vneg in H1; simpl in H1. lra. Qed.

(** C05 *)
Lemma too_few : forall svd arr w, (forall u, w = Some u -> vx u <> 0 /\ vy u <> 0 /\ vz u <> 0) ->
  (PCAOrientation svd arr w None = Raise ValueError <-> (length arr < 3)%nat) /\
  ((3 <= length arr)%nat -> exists f, PCAOrientation svd arr w None = Ok f).
Proof.
  intros svd arr w Hw. unfold PCAOrientation, run_svd. rewrite centered_length.
  assert (Z : has_zero (match w with None => ones | Some w => w end) = false).
  { destruct w as [u|]. apply has_zero_false; auto. apply has_zero_ones. }
  rewrite Z.
  destruct (length arr <? 3)%nat eqn:E.
  - apply Nat.ltb_lt in E. simpl. split; [tauto | intros; lia].
  - apply Nat.ltb_ge in E. destruct (svd _) as [[u s] v]. simpl.
    split; [split; [discriminate | lia] | intros; eexists; reflexivity].
Qed.
