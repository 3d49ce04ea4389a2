(** Lemmas about PCA fits. *)
From Coq Require Import Reals Lra Lia List Psatz Permutation Arith.
From Verif Require Import RVec Trig SpecPlane MPca LSvd.
Import ListNotations.
Open Scope R_scope.

(** * Quadratic form of a factorised array *)
Definition Q (a : list vec3) (d e : vec3) : R := sumf (fun p => dot p d * dot p e) a.

Lemma quad_u : forall u a0 a1 a2 b0 b1 b2,
  sumf (fun p => (a0 * vx p + a1 * vy p + a2 * vz p) * (b0 * vx p + b1 * vy p + b2 * vz p)) u =
  a0*b0 * sumf (fun p => vx p * vx p) u + a1*b1 * sumf (fun p => vy p * vy p) u
  + a2*b2 * sumf (fun p => vz p * vz p) u + (a0*b1+a1*b0) * sumf (fun p => vx p * vy p) u
  + (a0*b2+a2*b0) * sumf (fun p => vx p * vz p) u + (a1*b2+a2*b1) * sumf (fun p => vy p * vz p) u.
Proof. induction u; intros; simpl; [ring|]. rewrite IHu. ring. Qed.

Lemma Q_svd : forall a u s v d e, is_svd a u s v ->
  Q a d e = vx s * vx s * (dot (r0 v) d * dot (r0 v) e)
          + vy s * vy s * (dot (r1 v) d * dot (r1 v) e)
          + vz s * vz s * (dot (r2 v) d * dot (r2 v) e).
Proof.
  intros a u s v d e H. destruct H. unfold Q. rewrite svd_fact, sumf_map.
  rewrite (sumf_ext _ _ (fun p =>
    ((vx s * dot (r0 v) d) * vx p + (vy s * dot (r1 v) d) * vy p + (vz s * dot (r2 v) d) * vz p) *
    ((vx s * dot (r0 v) e) * vx p + (vy s * dot (r1 v) e) * vy p + (vz s * dot (r2 v) e) * vz p))).
  - rewrite quad_u, svd_u00, svd_u11, svd_u22, svd_u01, svd_u02, svd_u12. ring.
  - intros p _. unfold vm, vmul. rewrite !dot_add_l, !dot_scale_l. simpl. ring.
Qed.

Lemma svd_sq_order : forall a u s v, is_svd a u s v ->
  0 <= vz s * vz s /\ vz s * vz s <= vy s * vy s /\ vy s * vy s <= vx s * vx s.
Proof. intros a u s v []; nra. Qed.

Lemma Q_lower : forall a u s v d, is_svd a u s v -> nrm2 d = 1 -> vz s * vz s <= Q a d d.
Proof.
  intros a u s v d H Hd. rewrite (Q_svd a u s v) by auto.
  pose proof (svd_sq_order _ _ _ _ H) as (h0 & h1 & h2).
  pose proof (parseval v d (svd_v _ _ _ _ H)) as P. rewrite Hd in P. nra.
Qed.
Lemma Q_upper : forall a u s v d, is_svd a u s v -> nrm2 d = 1 -> Q a d d <= vx s * vx s.
Proof.
  intros a u s v d H Hd. rewrite (Q_svd a u s v) by auto.
  pose proof (svd_sq_order _ _ _ _ H) as (h0 & h1 & h2).
  pose proof (parseval v d (svd_v _ _ _ _ H)) as P. rewrite Hd in P. nra.
Qed.
Lemma Q_axes : forall a u s v, is_svd a u s v ->
  Q a (r0 v) (r0 v) = vx s * vx s /\ Q a (r1 v) (r1 v) = vy s * vy s /\ Q a (r2 v) (r2 v) = vz s * vz s.
Proof.
  intros a u s v H. rewrite !(Q_svd a u s v) by auto.
  destruct (svd_v _ _ _ _ H) as (h00 & h11 & h22 & h01 & h02 & h12).
  rewrite !(dot_comm (r1 v) (r0 v)), !(dot_comm (r2 v) (r0 v)), !(dot_comm (r2 v) (r1 v)).
  rewrite h00, h11, h22, h01, h02, h12. repeat split; ring.
Qed.
Lemma Q_offdiag : forall a u s v, is_svd a u s v ->
  Q a (r0 v) (r1 v) = 0 /\ Q a (r0 v) (r2 v) = 0 /\ Q a (r1 v) (r2 v) = 0.
Proof.
  intros a u s v H. rewrite !(Q_svd a u s v) by auto.
  destruct (svd_v _ _ _ _ H) as (h00 & h11 & h22 & h01 & h02 & h12).
  rewrite !(dot_comm (r1 v) (r0 v)), !(dot_comm (r2 v) (r0 v)), !(dot_comm (r2 v) (r1 v)).
  rewrite h00, h11, h22, h01, h02, h12. repeat split; ring.
Qed.

Lemma Q_trace : forall a u s v, is_svd a u s v ->
  Q a ex ex + Q a ey ey + Q a ez ez = vx s * vx s + vy s * vy s + vz s * vz s.
Proof.
  intros a u s v H. rewrite !(Q_svd a u s v) by auto.
  destruct (svd_v _ _ _ _ H) as (h00 & h11 & h22 & _).
  assert (X : forall w, dot w ex * dot w ex + dot w ey * dot w ey + dot w ez * dot w ez = dot w w)
    by (intros []; vunf; ring).
  pose proof (X (r0 v)) as X0. pose proof (X (r1 v)) as X1. pose proof (X (r2 v)) as X2.
  rewrite h00 in X0. rewrite h11 in X1. rewrite h22 in X2. nra.
Qed.

(** only the third axis attains the minimum when it is simple *)
Lemma Q_min_unique : forall a u s v d, is_svd a u s v -> vz s < vy s -> nrm2 d = 1 ->
  Q a d d <= vz s * vz s -> same_line d (r2 v).
Proof.
  intros a u s v d H Hlt Hd Hle.
  pose proof (svd_s2 _ _ _ _ H) as P2. pose proof (svd_s01 _ _ _ _ H) as P01.
  rewrite (Q_svd a u s v) in Hle by auto.
  pose proof (parseval v d (svd_v _ _ _ _ H)) as P. rewrite Hd in P.
  assert (Z1 : vz s * vz s < vy s * vy s) by nra.
  assert (Z0 : vz s * vz s < vx s * vx s) by nra.
  set (x := dot (r0 v) d) in *. set (y := dot (r1 v) d) in *. set (z := dot (r2 v) d) in *.
  assert (x * x = 0) by nra. assert (y * y = 0) by nra.
  assert (x = 0) by nra. assert (y = 0) by nra.
  assert (Z : z = 1 \/ z = -1). { assert ((z - 1) * (z + 1) = 0) by nra.
    apply Rmult_integral in H4. destruct H4; [left|right]; lra. }
  pose proof (orthonormal_expand v d (svd_v _ _ _ _ H)) as E.
  unfold mv in E. fold x y z in E. rewrite H2, H3 in E. unfold same_line.
  rewrite <- E. unfold vm; simpl.
  destruct Z as [-> | ->]; [left|right]; apply vec3_eq; vunf; ring.
Qed.

Lemma Q_map_mv : forall m a d e, Q (map (mv m) a) d e = Q a (vm d m) (vm e m).
Proof.
  intros. unfold Q. rewrite sumf_map. apply sumf_ext. intros p _. rewrite !dot_mv_vm. reflexivity.
Qed.

(** ** Comparing two decompositions *)
Lemma svd_compare : forall a u s v b u' s' v' m k,
  is_svd a u s v -> is_svd b u' s' v' -> orthonormal m -> 0 <= k ->
  (forall d e, Q b (mv m d) (mv m e) = k * k * Q a d e) ->
  s' = vscale k s /\ (0 < k -> vz s < vy s -> same_line (mv m (r2 v)) (r2 v')).
Proof.
  intros a u s v b u' s' v' m k Ha Hb Hm Hk HQ.
  assert (U1 : forall d, nrm2 (mv m d) = nrm2 d) by (intros; unfold nrm2; now apply dot_mv_mv).
  assert (U2 : forall d, nrm2 (vm d m) = nrm2 d) by (intros; unfold nrm2; now apply dot_vm_vm).
  assert (HQ' : forall d e, Q b d e = k * k * Q a (vm d m) (vm e m)).
  { intros d e. rewrite <- HQ.
    assert (X : forall w, mv m (vm w m) = w) by (intros; now apply mv_vm). rewrite !X. reflexivity. }
  destruct (Q_axes _ _ _ _ Ha) as (A0 & A1 & A2).
  destruct (Q_axes _ _ _ _ Hb) as (B0 & B1 & B2).
  destruct (svd_v _ _ _ _ Ha) as (a00 & a11 & a22 & _).
  destruct (svd_v _ _ _ _ Hb) as (b00 & b11 & b22 & _).
  assert (Kk : 0 <= k * k) by nra.
  (* smallest *)
  assert (S2 : vz s' * vz s' = k * k * (vz s * vz s)).
  { apply Rle_antisym.
    - rewrite <- A2, <- HQ. apply (Q_lower b u' s' v'); auto. rewrite U1. exact a22.
    - rewrite <- B2, HQ'. apply Rmult_le_compat_l; auto. apply (Q_lower a u s v); auto. rewrite U2. exact b22. }
  assert (S0 : vx s' * vx s' = k * k * (vx s * vx s)).
  { apply Rle_antisym.
    - rewrite <- B0, HQ'. apply Rmult_le_compat_l; auto. apply (Q_upper a u s v); auto. rewrite U2. exact b00.
    - rewrite <- A0, <- HQ. apply (Q_upper b u' s' v'); auto. rewrite U1. exact a00. }
  assert (S1 : vy s' * vy s' = k * k * (vy s * vy s)).
  { pose proof (Q_trace _ _ _ _ Hb) as Tb. rewrite !HQ' in Tb.
    (* the trace of a quadratic form is basis independent *)
    assert (T : Q a (vm ex m) (vm ex m) + Q a (vm ey m) (vm ey m) + Q a (vm ez m) (vm ez m)
              = vx s * vx s + vy s * vy s + vz s * vz s).
    { rewrite !(Q_svd a u s v) by auto.
      assert (X : forall w, dot w (vm ex m) * dot w (vm ex m) + dot w (vm ey m) * dot w (vm ey m)
                  + dot w (vm ez m) * dot w (vm ez m) = nrm2 w).
      { intros w. rewrite <- !dot_mv_vm. unfold nrm2. rewrite <- (dot_mv_mv m w w Hm).
        generalize (mv m w). intros []; vunf; ring. }
      pose proof (X (r0 v)) as X0. pose proof (X (r1 v)) as X1. pose proof (X (r2 v)) as X2.
      unfold nrm2 in *. rewrite a00 in X0. rewrite a11 in X1. rewrite a22 in X2. nra. }
    nra. }
  assert (NN : forall x y, 0 <= x -> 0 <= y -> x * x = y * y -> x = y) by (intros; nra).
  destruct Ha, Hb. split.
  - apply vec3_eq; simpl; apply NN; try nra.
  - intros Hkp Hlt. apply (Q_min_unique b u' s' v'); auto.
    + constructor; auto.
    + assert (vz s' = k * vz s) by (apply NN; nra). assert (vy s' = k * vy s) by (apply NN; nra). nra.
    + rewrite U1. exact a22.
    + rewrite HQ, A2, S2. lra.
Qed.

(** * Means and centring *)
Lemma INR_pos : forall A (l : list A), l <> [] -> 0 < INR (length l).
Proof. intros A [|x l] H; [congruence|]. apply lt_0_INR. simpl; lia. Qed.

Lemma vscale_inv_r : forall n t, n <> 0 -> vscale n (vscale (/ n) t) = t.
Proof. intros n [] H; apply vec3_eq; unfold vscale; simpl; field; auto. Qed.
Lemma vscale_inv_l : forall n t, n <> 0 -> vscale (/ n) (vscale n t) = t.
Proof. intros n [] H; apply vec3_eq; unfold vscale; simpl; field; auto. Qed.

Lemma np_mean_spec : forall a m, np_mean a = Some m <-> is_mean m a.
Proof.
  intros a m. unfold is_mean, np_mean. split.
  - destruct a as [|p a]; [discriminate|]. intros H. injection H as <-. split; [discriminate|].
    assert (P := INR_pos _ (p :: a) ltac:(discriminate)).
    apply vscale_inv_r. apply Rgt_not_eq. exact P.
  - intros [Hne H]. assert (P := INR_pos _ a Hne).
    destruct a as [|p a]; [congruence|]. f_equal. rewrite <- H.
    apply vscale_inv_l. apply Rgt_not_eq. exact P.
Qed.

Lemma np_mean_none : forall a, np_mean a = None <-> a = [].
Proof. intros [|p a]; unfold np_mean; split; congruence. Qed.

Lemma mean_unique : forall m m' a, is_mean m a -> is_mean m' a -> m = m'.
Proof. intros m m' a H H'. apply np_mean_spec in H, H'. congruence. Qed.

Lemma centered_mean : forall m a, is_mean m a -> centered a = map (fun p => vsub p m) a.
Proof. intros m a H. apply np_mean_spec in H. unfold centered. rewrite H. reflexivity. Qed.

Lemma mean_exists : forall a, a <> [] -> exists m, is_mean m a.
Proof.
  intros a H. destruct (np_mean a) as [m|] eqn:E.
  - exists m. now apply np_mean_spec. - apply np_mean_none in E. contradiction.
Qed.

Lemma centered_length : forall a, length (centered a) = length a.
Proof.
  intros a. unfold centered. destruct (np_mean a) eqn:E.
  - apply map_length. - apply np_mean_none in E. subst; reflexivity.
Qed.

Lemma vsum_map_add : forall t a, vsum (map (vadd t) a) = vadd (vscale (INR (length a)) t) (vsum a).
Proof.
  intros. apply vec3_eq; unfold vsum; simpl; rewrite sumf_map; unfold vadd; simpl;
    rewrite sumf_plus, sumf_const; ring.
Qed.
Lemma vsum_map_sub : forall t a, vsum (map (fun p => vsub p t) a) = vsub (vsum a) (vscale (INR (length a)) t).
Proof.
  intros. apply vec3_eq; unfold vsum; simpl; rewrite sumf_map; unfold vsub; simpl;
    rewrite sumf_minus, sumf_const; ring.
Qed.

Lemma centered_sum : forall a, vsum (centered a) = vzero.
Proof.
  intros a. destruct a as [|p a']. { unfold centered, vsum, vzero; simpl; reflexivity. }
  destruct (mean_exists (p :: a')) as [m Hm]; [discriminate|].
  rewrite (centered_mean m) by auto. destruct Hm as [_ Hm].
  rewrite vsum_map_sub, Hm. vring.
Qed.

Lemma mean_shift : forall m t a, is_mean m a -> is_mean (vadd t m) (map (vadd t) a).
Proof.
  intros m t a [Hne H]. split. { destruct a; simpl; congruence. }
  rewrite vsum_map_add, map_length, <- H. vring.
Qed.

Lemma centered_shift : forall t a, centered (map (vadd t) a) = centered a.
Proof.
  intros t a. destruct a as [|p a']; [reflexivity|].
  destruct (mean_exists (p :: a')) as [m Hm]; [discriminate|].
  rewrite (centered_mean (vadd t m)) by (now apply mean_shift).
  rewrite (centered_mean m) by auto. rewrite map_map. apply map_ext. intros; vring.
Qed.

Lemma centered_idem : forall a, centered (centered a) = centered a.
Proof.
  intros a. destruct a as [|p a']; [reflexivity|].
  destruct (mean_exists (p :: a')) as [m Hm]; [discriminate|].
  rewrite (centered_mean m (p :: a')) by auto.
  rewrite (map_ext _ (vadd (vneg m))). 2: { intros; vring. }
  rewrite centered_shift. rewrite (centered_mean m) by auto. apply map_ext. intros; vring.
Qed.

Lemma mean_mv : forall M m a, is_mean m a -> is_mean (mv M m) (map (mv M) a).
Proof.
  intros M m a [Hne H]. split. { destruct a; simpl; congruence. }
  rewrite map_length.
  assert (E : vsum (map (mv M) a) = mv M (vsum a)).
  { clear. induction a as [|p a IH].
    - destruct M as [[] [] []]; unfold vsum; simpl. apply vec3_eq; munf; ring.
    - simpl map. assert (S : forall q l, vsum (q :: l) = vadd q (vsum l)) by (intros; reflexivity).
      rewrite !S, IH. destruct M as [[] [] []], p. generalize (vsum a). intros []. apply vec3_eq; munf; ring. }
  rewrite E, <- H. destruct M as [[] [] []], m. apply vec3_eq; munf; ring.
Qed.

Lemma centered_mv : forall M a, centered (map (mv M) a) = map (mv M) (centered a).
Proof.
  intros M a. destruct a as [|p a']; [reflexivity|].
  destruct (mean_exists (p :: a')) as [m Hm]; [discriminate|].
  rewrite (centered_mean (mv M m)) by (now apply mean_mv).
  rewrite (centered_mean m) by auto. rewrite !map_map. apply map_ext.
  intros q. destruct M as [[] [] []], q, m. apply vec3_eq; munf; ring.
Qed.

Lemma mean_scale : forall k m a, is_mean m a -> is_mean (vscale k m) (map (vscale k) a).
Proof.
  intros k m a [Hne H]. split. { destruct a; simpl; congruence. }
  rewrite map_length.
  assert (E : vsum (map (vscale k) a) = vscale k (vsum a)).
  { apply vec3_eq; unfold vsum; simpl; rewrite sumf_map; unfold vscale; simpl; apply sumf_scal. }
  rewrite E, <- H. vring.
Qed.

Lemma centered_scale : forall k a, centered (map (vscale k) a) = map (vscale k) (centered a).
Proof.
  intros k a. destruct a as [|p a']; [reflexivity|].
  destruct (mean_exists (p :: a')) as [m Hm]; [discriminate|].
  rewrite (centered_mean (vscale k m)) by (now apply mean_scale).
  rewrite (centered_mean m) by auto. rewrite !map_map. apply map_ext. intros; vring.
Qed.

Lemma mean_perm : forall m a b, Permutation a b -> is_mean m a -> is_mean m b.
Proof.
  intros m a b P [Hne H]. split.
  - intro; subst. apply Permutation_sym, Permutation_nil in P. congruence.
  - rewrite <- (Permutation_length P), H. unfold vsum.
    rewrite (sumf_perm _ vx _ _ P), (sumf_perm _ vy _ _ P), (sumf_perm _ vz _ _ P). reflexivity.
Qed.

Lemma centered_perm : forall a b, Permutation a b -> Permutation (centered a) (centered b).
Proof.
  intros a b P. destruct a as [|p a'].
  { apply Permutation_nil in P. subst. constructor. }
  destruct (mean_exists (p :: a')) as [m Hm]; [discriminate|].
  rewrite (centered_mean m (p :: a')) by auto.
  rewrite (centered_mean m b) by (eapply mean_perm; eauto). now apply Permutation_map.
Qed.

(** * Shape of a fit *)
Lemma vdiv_ones : forall a, map (fun p => vdiv p ones) a = a.
Proof.
  intros a. rewrite (map_ext _ (fun p => p)). { apply map_id. }
  intros []; unfold vdiv, ones; simpl; f_equal; field.
Qed.
Lemma vmul_ones : forall s, vmul s ones = s.
Proof. intros []; unfold vmul, ones; simpl; f_equal; ring. Qed.

Lemma has_zero_false : forall w, has_zero w = false <-> (vx w <> 0 /\ vy w <> 0 /\ vz w <> 0).
Proof.
  intros w; unfold has_zero.
  destruct (Req_EM_T (vx w) 0), (Req_EM_T (vy w) 0), (Req_EM_T (vz w) 0); split; intuition congruence.
Qed.
Lemma has_zero_ones : has_zero ones = false.
Proof. apply has_zero_false; unfold ones; simpl; repeat split; lra. Qed.

Definition derived (f : pca) : Prop :=
  p_normal_own f = derived_normal (p_axes f) /\
  p_strike f = cross (p_normal f) ez /\
  p_dip_dr f = normalize (cross (p_strike f) (p_normal f)).

Lemma weighted_inv : forall svd arr w f, lapack svd ->
  PCAOrientation svd arr (Some w) None = Ok f ->
  (3 <= length arr)%nat /\ (vx w <> 0 /\ vy w <> 0 /\ vz w <> 0) /\
  exists u s, is_svd (map (fun p => vdiv p w) (centered arr)) u s (p_axes f) /\
    p_s f = vmul s w /\ p_U f = Some u /\ p_arr f = centered arr /\ p_mean f = np_mean arr /\
    p_array f = arr /\ p_n f = length arr /\ p_weights f = w /\ derived f.
Proof.
  intros svd arr w f HL H. unfold PCAOrientation, run_svd in H.
  rewrite centered_length in H.
  destruct (length arr <? 3)%nat eqn:E. { discriminate. }
  apply Nat.ltb_ge in E.
  destruct (has_zero w) eqn:Hw; [discriminate|].
  destruct (svd (map (fun p => vdiv p w) (centered arr))) as [[u s] v] eqn:Es. simpl in H.
  assert (K := HL (map (fun p => vdiv p w) (centered arr))).
  unfold svd_ok_on in K. rewrite Es in K. rewrite map_length, centered_length in K.
  split; auto. split. { now apply has_zero_false. }
  injection H as <-. exists u, s. refine (conj (K E) _). simpl.
  repeat split; auto.
Qed.

Lemma fit_inv : forall svd arr f, lapack svd ->
  PCAOrientation svd arr None None = Ok f ->
  (3 <= length arr)%nat /\
  exists u m, is_svd (centered arr) u (p_s f) (p_axes f) /\ is_mean m arr /\
    p_U f = Some u /\ p_arr f = centered arr /\ p_mean f = Some m /\
    p_array f = arr /\ p_n f = length arr /\ derived f.
Proof.
  intros svd arr f HL H.
  assert (H' : PCAOrientation svd arr (Some ones) None = Ok f) by exact H.
  destruct (weighted_inv _ _ _ _ HL H') as (Hn & _ & u & s & Hs & E1 & E2 & E3 & E4 & E5 & E6 & _ & D).
  split; auto. destruct (mean_exists arr) as [m Hm]. { destruct arr; simpl in Hn; [lia|discriminate]. }
  exists u, m. rewrite vdiv_ones in Hs. rewrite vmul_ones in E1. rewrite E1.
  rewrite E4. refine (conj Hs (conj Hm _)). apply np_mean_spec in Hm. repeat split; try apply D; auto.
Qed.

Lemma fit_exists : forall svd arr, lapack svd -> (3 <= length arr)%nat ->
  exists f, PCAOrientation svd arr None None = Ok f.
Proof.
  intros svd arr HL Hn. unfold PCAOrientation, run_svd. rewrite centered_length.
  destruct (length arr <? 3)%nat eqn:E. { apply Nat.ltb_lt in E. lia. }
  rewrite has_zero_ones. destruct (svd _) as [[u s] v]. simpl. eexists; reflexivity.
Qed.

(** * The normal *)
Lemma normal_line : forall f, derived f -> same_line (p_normal f) (r2 (p_axes f)).
Proof.
  intros f [E _]. unfold p_normal. rewrite E. unfold derived_normal.
  destruct (Rlt_dec _ _); [right | left]; reflexivity.
Qed.
Lemma normal_up : forall f, derived f -> 0 <= vz (p_normal f).
Proof.
  intros f [E _]. unfold p_normal. rewrite E. unfold derived_normal.
  destruct (Rlt_dec _ _); simpl; lra.
Qed.
Lemma normal_unit : forall f, derived f -> orthonormal (p_axes f) -> unit3 (p_normal f).
Proof.
  intros f D O. pose proof (orthonormal_unit2 _ O) as U2. unfold unit3 in *.
  destruct (normal_line f D) as [-> | ->]; auto. rewrite nrm2_neg; auto.
Qed.
Lemma same_line_dot0 : forall a b c, same_line a b -> dot c b = 0 -> dot c a = 0.
Proof. intros a b c [-> | ->] H; auto. rewrite dot_neg_r, H. ring. Qed.
Lemma same_line_sym : forall a b, same_line a b -> same_line b a.
Proof. intros a b [-> | ->]; [left | right]; auto. now rewrite vneg_invol. Qed.
Lemma same_line_trans : forall a b c, same_line a b -> same_line b c -> same_line a c.
Proof. intros a b c [-> | ->] [-> | ->]; unfold same_line; rewrite ?vneg_invol; auto. Qed.
Lemma same_line_Q : forall a x y, same_line x y -> Q a x x = Q a y y.
Proof.
  intros a x y [-> | ->]; auto. unfold Q. apply sumf_ext. intros; rewrite !dot_neg_r; ring.
Qed.
Lemma same_line_unit : forall x y, same_line x y -> nrm2 x = nrm2 y.
Proof. intros x y [-> | ->]; auto. apply nrm2_neg. Qed.

(** * Sum of squared distances *)
Lemma ssd_split : forall n d m arr, is_mean m arr ->
  sum_sq_dist n d arr = Q (centered arr) n n
    + INR (length arr) * ((dot n m - d) * (dot n m - d)).
Proof.
  intros n d m arr Hm. unfold sum_sq_dist, Q.
  assert (Z : sumf (fun p => dot p n) (centered arr) = 0).
  { rewrite dot_vsum, centered_sum. apply dot_zero_l. }
  rewrite (centered_mean m) in * by auto. rewrite sumf_map in *.
  rewrite (sumf_ext _ (sq_dist n d) (fun p => dot (vsub p m) n * dot (vsub p m) n
      + (2 * (dot n m - d)) * dot (vsub p m) n + (dot n m - d) * (dot n m - d))).
  - rewrite !sumf_plus, sumf_scal, Z, sumf_const. ring.
  - intros p _. unfold sq_dist. rewrite dot_sub_l, (dot_comm p n), (dot_comm m n). ring.
Qed.
