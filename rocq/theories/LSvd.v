(** Existence of a singular value decomposition for every n x 3 array with
    n >= 3, as a (noncomputable) function: the contract [is_svd] that the model
    assumes of LAPACK is satisfiable for every input. *)
From Coq Require Import Reals Lra Lia List Psatz.
From Verif Require Import RVec Trig SpecPlane.
Import ListNotations.
Open Scope R_scope.

(** * Real roots of a cubic *)
Lemma cubic_root : forall c2 c1 c0, { t : R | t*t*t + c2*(t*t) + c1*t + c0 = 0 }.
Proof.
  intros c2 c1 c0.
  set (f := fun t => t*t*t + c2*(t*t) + c1*t + c0).
  set (S := Rabs c2 + Rabs c1 + Rabs c0).
  set (K := 1 + S).
  assert (A2 := Rabs_pos c2). assert (A1 := Rabs_pos c1). assert (A0 := Rabs_pos c0).
  assert (HS : 0 <= S) by (unfold S; lra).
  assert (B2 := Rle_abs c2). assert (B1 := Rle_abs c1). assert (B0 := Rle_abs c0).
  assert (D2 := Rle_abs (-c2)). assert (D1 := Rle_abs (-c1)). assert (D0 := Rle_abs (-c0)).
  rewrite Rabs_Ropp in D2, D1, D0.
  assert (HK : 1 <= K) by (unfold K; lra).
  assert (HK2 : K <= K * K) by nra.
  assert (E2 : Rabs c2 * (K*K) + Rabs c1 * K + Rabs c0 <= S * (K*K)).
  { unfold S. nra. }
  assert (E3 : S * (K*K) <= K*K*K). { replace (K*K*K) with (K * (K*K)) by ring.
    apply Rmult_le_compat_r; [nra | unfold K; lra]. }
  assert (Hhi : 0 <= f K). { unfold f. nra. }
  assert (Hlo : f (- K) <= 0). { unfold f. nra. }
  destruct (IVT_cor f (-K) K) as [z [_ Hz]].
  - unfold f. reg.
  - lra.
  - nra.
  - exists z. exact Hz.
Qed.

(** * Non-zero vectors orthogonal to given ones *)
Definition vec_zero_dec (v : vec3) : {v = vzero} + {v <> vzero}.
Proof.
  destruct v as [x y z]. destruct (Req_EM_T x 0); [destruct (Req_EM_T y 0); [destruct (Req_EM_T z 0)|]|].
  - left; subst; reflexivity.
  - right; intro H; injection H; auto.
  - right; intro H; injection H; auto.
  - right; intro H; injection H; auto.
Defined.

Lemma ex_nz : ex <> vzero.
Proof. unfold ex, vzero; intro H; injection H; lra. Qed.

(** a vector orthogonal to one vector *)
Lemma perp1 : forall a, { w : vec3 | w <> vzero /\ dot w a = 0 }.
Proof.
  intros a. destruct (vec_zero_dec (cross a ex)) as [h|h].
  - destruct (vec_zero_dec (cross a ey)) as [h2|h2].
    + exists ex. split; [apply ex_nz|].
      destruct a; unfold cross, vzero in *; simpl in *. injection h; injection h2; intros.
      unfold dot; simpl. lra.
    + exists (cross a ey). split; auto. apply dot_cross_l.
  - exists (cross a ex). split; auto. apply dot_cross_l.
Qed.

(** a vector orthogonal to two vectors *)
Lemma perp2 : forall a b, { w : vec3 | w <> vzero /\ dot w a = 0 /\ dot w b = 0 }.
Proof.
  intros a b. destruct (vec_zero_dec (cross a b)) as [h|h].
  - destruct (vec_zero_dec a) as [ha|ha].
    + destruct (perp1 b) as [w [H1 H2]]. exists w. subst a. rewrite dot_zero_r. auto.
    + destruct (perp1 a) as [w [H1 H2]]. exists w. repeat split; auto.
      (* b is parallel to a *)
      assert (E : vscale (nrm2 a) b = vscale (dot a b) a).
      { assert (E0 : vsub (vscale (nrm2 a) b) (vscale (dot a b) a) = cross (cross a b) a)
          by (destruct a, b; apply vec3_eq; vunf; ring).
        rewrite h in E0. assert (E1 : cross vzero a = vzero) by (apply vec3_eq; vunf; ring).
        rewrite E1 in E0. destruct (vscale (nrm2 a) b), (vscale (dot a b) a).
        unfold vsub, vzero in E0; simpl in E0. injection E0 as X Y Z. f_equal; lra. }
      assert (P := nrm2_pos a ha).
      assert (nrm2 a * dot w b = 0).
      { rewrite <- dot_scale_r, E, dot_scale_r, H2. ring. }
      apply Rmult_integral in H. destruct H; lra.
  - exists (cross a b). repeat split; auto. apply dot_cross_l. apply dot_cross_r.
Qed.

(** kernel of a singular matrix *)
Lemma kernel : forall m, mdet m = 0 ->
  { w : vec3 | w <> vzero /\ dot (r0 m) w = 0 /\ dot (r1 m) w = 0 /\ dot (r2 m) w = 0 }.
Proof.
  intros m Hd.
  assert (D1 : dot (cross (r0 m) (r1 m)) (r2 m) = mdet m) by (unfold mdet; vring).
  assert (D2 : dot (cross (r0 m) (r2 m)) (r1 m) = - mdet m) by (unfold mdet; vring).
  assert (D3 : dot (cross (r1 m) (r2 m)) (r0 m) = mdet m) by (unfold mdet; vring).
  destruct (vec_zero_dec (cross (r0 m) (r1 m))) as [h01|h01].
  2:{ exists (cross (r0 m) (r1 m)). repeat split; auto; rewrite dot_comm.
      apply dot_cross_l. apply dot_cross_r. lra. }
  destruct (vec_zero_dec (cross (r0 m) (r2 m))) as [h02|h02].
  2:{ exists (cross (r0 m) (r2 m)). repeat split; auto; rewrite dot_comm.
      apply dot_cross_l. lra. apply dot_cross_r. }
  destruct (vec_zero_dec (r0 m)) as [h0|h0].
  - destruct (perp2 (r1 m) (r2 m)) as [w (W1 & W2 & W3)]. exists w.
    rewrite h0, dot_zero_l. rewrite (dot_comm (r1 m)), (dot_comm (r2 m)). auto.
  - destruct (perp1 (r0 m)) as [w (W1 & W2)]. exists w.
    assert (Par : forall b, cross (r0 m) b = vzero -> dot b w = 0).
    { intros b hb.
      assert (E : vscale (nrm2 (r0 m)) b = vscale (dot (r0 m) b) (r0 m)).
      { assert (E0 : vsub (vscale (nrm2 (r0 m)) b) (vscale (dot (r0 m) b) (r0 m))
                     = cross (cross (r0 m) b) (r0 m))
          by (destruct (r0 m), b; apply vec3_eq; vunf; ring).
        rewrite hb in E0. assert (E1 : cross vzero (r0 m) = vzero) by (apply vec3_eq; vunf; ring).
        rewrite E1 in E0. destruct (vscale (nrm2 (r0 m)) b), (vscale (dot (r0 m) b) (r0 m)).
        unfold vsub, vzero in E0; simpl in E0. injection E0 as X Y Z. f_equal; lra. }
      assert (P := nrm2_pos _ h0).
      assert (nrm2 (r0 m) * dot b w = 0).
      { rewrite <- dot_scale_l, E, dot_scale_l, (dot_comm (r0 m) w), W2. ring. }
      apply Rmult_integral in H. destruct H; lra. }
    rewrite (dot_comm (r0 m)). repeat split; auto.
Qed.

(** a unit vector from a non-zero one *)
Lemma unitize : forall v, v <> vzero -> { u : vec3 | nrm2 u = 1 /\ exists k, k <> 0 /\ u = vscale k v }.
Proof.
  intros v H. assert (P := nrm2_pos v H). assert (S : 0 < norm v) by (apply sqrt_lt_R0; auto).
  exists (vscale (/ norm v) v). split.
  - rewrite nrm2_scale, <- norm_sqr. field. lra.
  - exists (/ norm v). split; auto. apply Rinv_neq_0_compat. lra.
Qed.

(** * Spectral theorem for symmetric 3x3 matrices *)
Definition symmetric (m : mat3) : Prop := mT m = m.

Definition bil (m : mat3) (a b : vec3) : R := dot a (mv m b).

Lemma bil_sym : forall m a b, symmetric m -> bil m a b = bil m b a.
Proof.
  intros m a b H. unfold bil.
  rewrite (dot_comm b), dot_mv_vm. rewrite <- mv_mT, H. reflexivity.
Qed.
Lemma bil_add_l : forall m a b c, bil m (vadd a b) c = bil m a c + bil m b c.
Proof. intros; apply dot_add_l. Qed.
Lemma bil_scale_l : forall m k a c, bil m (vscale k a) c = k * bil m a c.
Proof. intros; apply dot_scale_l. Qed.
Lemma bil_add_r : forall m a b c, bil m c (vadd a b) = bil m c a + bil m c b.
Proof. intros [[] [] []] [] [] []; unfold bil; munf; ring. Qed.
Lemma bil_scale_r : forall m k a c, bil m c (vscale k a) = k * bil m c a.
Proof. intros [[] [] []] k [] []; unfold bil; munf; ring. Qed.

Lemma eigvec : forall m, symmetric m -> { v : vec3 | nrm2 v = 1 /\ exists l, mv m v = vscale l v }.
Proof.
  intros m Hs.
  (* characteristic polynomial *)
  set (p2 := dot (cross (r0 m) (r1 m)) ez - dot (cross (r0 m) (r2 m)) ey + dot (cross (r1 m) (r2 m)) ex).
  set (tr := vx (r0 m) + vy (r1 m) + vz (r2 m)).
  destruct (cubic_root (- tr) p2 (- mdet m)) as [l Hl].
  set (ml := M3 (vsub (r0 m) (V3 l 0 0)) (vsub (r1 m) (V3 0 l 0)) (vsub (r2 m) (V3 0 0 l))).
  assert (Hd : mdet ml = 0).
  { assert (E : mdet ml = - (l*l*l + - tr*(l*l) + p2*l + - mdet m)).
    { unfold ml, tr, p2. destruct m as [[] [] []]. munf. ring. }
    rewrite E, Hl. ring. }
  destruct (kernel ml Hd) as [w (W0 & W1 & W2 & W3)].
  destruct (unitize w W0) as [u [U1 U2]].
  exists u. split; auto. exists l. destruct U2 as [k [Hk ->]].
  assert (E : mv m w = vscale l w).
  { apply vec3_eq.
    - assert (X : dot (r0 ml) w = vx (mv m w) - l * vx w) by (unfold ml; simpl; munf; ring).
      rewrite W1 in X. simpl. unfold mv in X; simpl in X. lra.
    - assert (X : dot (r1 ml) w = vy (mv m w) - l * vy w) by (unfold ml; simpl; munf; ring).
      rewrite W2 in X. simpl. unfold mv in X; simpl in X. lra.
    - assert (X : dot (r2 ml) w = vz (mv m w) - l * vz w) by (unfold ml; simpl; munf; ring).
      rewrite W3 in X. simpl. unfold mv in X; simpl in X. lra. }
  assert (L : mv m (vscale k w) = vscale k (mv m w)) by (destruct m as [[] [] []], w; apply vec3_eq; munf; ring).
  rewrite L, E. apply vec3_eq; vunf; ring.
Qed.

Definition diagonalises (m v : mat3) : Prop :=
  orthonormal v /\ bil m (r0 v) (r1 v) = 0 /\ bil m (r0 v) (r2 v) = 0 /\ bil m (r1 v) (r2 v) = 0.

Lemma spectral : forall m, symmetric m -> { v : mat3 | diagonalises m v }.
Proof.
  intros m Hs.
  destruct (eigvec m Hs) as [q0 [Q0 Hev]].
  destruct (perp1 q0) as [w [W0 W1]].
  destruct (unitize w W0) as [q1 [Q1 Q1k]].
  set (q2 := cross q0 q1).
  assert (D01 : dot q0 q1 = 0).
  { destruct Q1k as [k [_ ->]]. rewrite dot_scale_r, (dot_comm q0), W1. ring. }
  assert (D02 : dot q0 q2 = 0) by (unfold q2; rewrite dot_comm; apply dot_cross_l).
  assert (D12 : dot q1 q2 = 0) by (unfold q2; rewrite dot_comm; apply dot_cross_r).
  assert (Q2 : nrm2 q2 = 1) by (unfold q2; rewrite nrm2_cross, Q0, Q1, D01; ring).
  set (a := bil m q1 q1). set (b := bil m q1 q2). set (c := bil m q2 q2).
  set (th := atan2 (2*b) (a - c) / 2).
  set (C := cos th). set (S := sin th).
  set (v1 := vadd (vscale C q1) (vscale S q2)).
  set (v2 := vadd (vscale (-S) q1) (vscale C q2)).
  assert (SC : S*S + C*C = 1) by apply sincos1.
  assert (K : b*(C*C - S*S) - (a - c)*(S*C) = 0).
  { assert (E1 : C*C - S*S = cos (atan2 (2*b) (a-c))).
    { unfold C, S, th. rewrite <- cos_2a. f_equal. field. }
    assert (E2 : 2*(S*C) = sin (atan2 (2*b) (a-c))).
    { unfold C, S, th. rewrite <- Rmult_assoc, <- sin_2a. f_equal. field. }
    destruct (Req_EM_T (a - c) 0) as [h1|h1]; [destruct (Req_EM_T (2*b) 0) as [h2|h2]|].
    - assert (b = 0) by lra. rewrite H, h1. ring.
    - assert (N : a - c <> 0 \/ 2*b <> 0) by auto.
      pose proof (sqrt_lt_R0 _ (hyp_pos _ _ N)).
      assert (E3 : (a-c)*(S*C) = (a-c)*(sin (atan2 (2*b) (a-c)))/2) by (rewrite <- E2; field).
      rewrite E1, E3, cos_atan2, sin_atan2 by auto. field. lra.
    - assert (N : a - c <> 0 \/ 2*b <> 0) by auto.
      pose proof (sqrt_lt_R0 _ (hyp_pos _ _ N)).
      assert (E3 : (a-c)*(S*C) = (a-c)*(sin (atan2 (2*b) (a-c)))/2) by (rewrite <- E2; field).
      rewrite E1, E3, cos_atan2, sin_atan2 by auto. field. lra. }
  assert (O : forall x, dot x q0 = 0 -> bil m q0 x = 0).
  { intros x Hx. rewrite bil_sym by auto. destruct Hev as [l E]. unfold bil. rewrite E, dot_scale_r, Hx. ring. }
  exists (M3 q0 v1 v2). unfold diagonalises; simpl. unfold nrm2 in *.
  split; [|repeat split].
  - unfold orthonormal; simpl; unfold v1, v2.
    rewrite !dot_add_l, !dot_add_r, !dot_scale_l, !dot_scale_r.
    rewrite (dot_comm q2 q1), Q0, Q1, Q2, D01, D02, D12. repeat split; nra.
  - apply O. unfold v1. rewrite dot_add_l, !dot_scale_l, (dot_comm q1), (dot_comm q2), D01, D02. ring.
  - apply O. unfold v2. rewrite dot_add_l, !dot_scale_l, (dot_comm q1), (dot_comm q2), D01, D02. ring.
  - unfold v1, v2. rewrite !bil_add_l, !bil_add_r, !bil_scale_l, !bil_scale_r.
    rewrite (bil_sym m q2 q1) by auto. fold a b c.
    transitivity (b*(C*C - S*S) - (a - c)*(S*C)); [ring | exact K].
Qed.

(** sorting the rows by decreasing eigenvalue *)
Lemma spectral_sorted : forall m, symmetric m ->
  { v : mat3 | diagonalises m v /\ bil m (r1 v) (r1 v) <= bil m (r0 v) (r0 v)
                               /\ bil m (r2 v) (r2 v) <= bil m (r1 v) (r1 v) }.
Proof.
  intros m Hs. destruct (spectral m Hs) as [v [(h00 & h11 & h22 & h01 & h02 & h12) (B01 & B02 & B12)]].
  set (l0 := bil m (r0 v) (r0 v)). set (l1 := bil m (r1 v) (r1 v)). set (l2 := bil m (r2 v) (r2 v)).
  assert (T : forall a b c : vec3,
    dot a a = 1 -> dot b b = 1 -> dot c c = 1 -> dot a b = 0 -> dot a c = 0 -> dot b c = 0 ->
    bil m a b = 0 -> bil m a c = 0 -> bil m b c = 0 ->
    bil m b b <= bil m a a -> bil m c c <= bil m b b ->
    { v : mat3 | diagonalises m v /\ bil m (r1 v) (r1 v) <= bil m (r0 v) (r0 v)
                               /\ bil m (r2 v) (r2 v) <= bil m (r1 v) (r1 v) }).
  { intros a b c; intros. exists (M3 a b c). unfold diagonalises, orthonormal; simpl. repeat split; auto. }
  assert (h10 : dot (r1 v) (r0 v) = 0) by (rewrite dot_comm; auto).
  assert (h20 : dot (r2 v) (r0 v) = 0) by (rewrite dot_comm; auto).
  assert (h21 : dot (r2 v) (r1 v) = 0) by (rewrite dot_comm; auto).
  assert (B10 : bil m (r1 v) (r0 v) = 0) by (rewrite bil_sym; auto).
  assert (B20 : bil m (r2 v) (r0 v) = 0) by (rewrite bil_sym; auto).
  assert (B21 : bil m (r2 v) (r1 v) = 0) by (rewrite bil_sym; auto).
  destruct (Rle_dec l1 l0) as [a|a]; destruct (Rle_dec l2 l1) as [b|b]; destruct (Rle_dec l2 l0) as [c|c];
    unfold l0, l1, l2 in *.
  - apply (T (r0 v) (r1 v) (r2 v)); auto.
  - apply (T (r0 v) (r1 v) (r2 v)); auto.
  - apply (T (r0 v) (r2 v) (r1 v)); auto; lra.
  - apply (T (r2 v) (r0 v) (r1 v)); auto; lra.
  - apply (T (r1 v) (r0 v) (r2 v)); auto; lra.
  - apply (T (r1 v) (r2 v) (r0 v)); auto; lra.
  - exfalso; lra.
  - apply (T (r2 v) (r1 v) (r0 v)); auto; lra.
Qed.

(** * Left singular vectors *)
Fixpoint zip3 (a b c : list R) : list vec3 :=
  match a, b, c with
  | x :: a', y :: b', z :: c' => V3 x y z :: zip3 a' b' c'
  | _, _, _ => []
  end.
Fixpoint dotl (a b : list R) : R :=
  match a, b with
  | x :: a', y :: b' => x * y + dotl a' b'
  | _, _ => 0
  end.

Lemma zip3_len : forall a b c, length b = length a -> length c = length a -> length (zip3 a b c) = length a.
Proof. induction a; destruct b, c; simpl; intros; try lia. rewrite IHa; lia. Qed.

Lemma zip3_sums : forall a b c, length b = length a -> length c = length a ->
  sumf (fun p => vx p * vx p) (zip3 a b c) = dotl a a /\
  sumf (fun p => vy p * vy p) (zip3 a b c) = dotl b b /\
  sumf (fun p => vz p * vz p) (zip3 a b c) = dotl c c /\
  sumf (fun p => vx p * vy p) (zip3 a b c) = dotl a b /\
  sumf (fun p => vx p * vz p) (zip3 a b c) = dotl a c /\
  sumf (fun p => vy p * vz p) (zip3 a b c) = dotl b c.
Proof.
  induction a as [|x a IH]; destruct b, c; simpl; intros Hb Hc; try lia.
  - repeat split; ring.
  - destruct (IH b c) as (h1 & h2 & h3 & h4 & h5 & h6); try lia.
    rewrite h1, h2, h3, h4, h5, h6. repeat split; ring.
Qed.

Lemma dotl_comm : forall a b, dotl a b = dotl b a.
Proof. induction a; destruct b; simpl; auto. rewrite IHa; ring. Qed.

Lemma dotl_zeros : forall a n, dotl (repeat 0 n) a = 0.
Proof. induction a; destruct n; simpl; auto. rewrite IHa; ring. Qed.

Lemma complete_cols : forall a b : list R, (3 <= length a)%nat -> length b = length a ->
  { w : list R | length w = length a /\ dotl w w = 1 /\ dotl a w = 0 /\ dotl b w = 0 }.
Proof.
  intros [|a0 [|a1 [|a2 a]]] [|b0 [|b1 [|b2 b]]] Ha Hb; simpl in Ha, Hb; try lia.
  destruct (perp2 (V3 a0 a1 a2) (V3 b0 b1 b2)) as [w (W0 & W1 & W2)].
  destruct (unitize w W0) as [u [U1 U2]].
  exists (vx u :: vy u :: vz u :: repeat 0 (length a)). split; [|repeat split].
  - simpl. rewrite repeat_length. reflexivity.
  - simpl. rewrite dotl_zeros. unfold nrm2, dot in U1. lra.
  - simpl. rewrite dotl_comm, dotl_zeros. destruct U2 as [k [_ ->]]. unfold dot in W1; simpl in *.
    transitivity (k * (vx w * a0 + vy w * a1 + vz w * a2)); [ring | rewrite W1; ring].
  - simpl. rewrite dotl_comm, dotl_zeros. destruct U2 as [k [_ ->]]. unfold dot in W2; simpl in *.
    transitivity (k * (vx w * b0 + vy w * b1 + vz w * b2)); [ring | rewrite W2; ring].
Qed.

(** Gram matrix of the data *)
Definition gram (a : list vec3) : mat3 :=
  M3 (V3 (sumf (fun p => vx p * vx p) a) (sumf (fun p => vx p * vy p) a) (sumf (fun p => vx p * vz p) a))
     (V3 (sumf (fun p => vx p * vy p) a) (sumf (fun p => vy p * vy p) a) (sumf (fun p => vy p * vz p) a))
     (V3 (sumf (fun p => vx p * vz p) a) (sumf (fun p => vy p * vz p) a) (sumf (fun p => vz p * vz p) a)).

Lemma gram_sym : forall a, symmetric (gram a).
Proof. intros; reflexivity. Qed.

Lemma gram_bil : forall a d e, bil (gram a) d e = sumf (fun p => dot p d * dot p e) a.
Proof.
  induction a as [|p a IH]; intros d e.
  - unfold bil, gram; munf; ring.
  - simpl sumf. rewrite <- IH. unfold bil, gram; simpl. munf. ring.
Qed.

Lemma gram_psd : forall a d, 0 <= bil (gram a) d d.
Proof. intros; rewrite gram_bil; apply sumf_nonneg; intros; nra. Qed.

Lemma dotl_map : forall (a : list vec3) f g, dotl (map f a) (map g a) = sumf (fun p => f p * g p) a.
Proof. induction a; simpl; intros; auto. rewrite IHa; auto. Qed.

Definition col (k : vec3) (s : R) (a : list vec3) : list R := map (fun p => dot p k / s) a.

Lemma factor_cols : forall v a c0 c1 c2 s0 s1 s2,
  (forall p, p = vm (V3 (dot p (r0 v)) (dot p (r1 v)) (dot p (r2 v))) v) ->
  length c0 = length a -> length c1 = length a -> length c2 = length a ->
  map (fun x => x * s0) c0 = map (fun p => dot p (r0 v)) a ->
  map (fun x => x * s1) c1 = map (fun p => dot p (r1 v)) a ->
  map (fun x => x * s2) c2 = map (fun p => dot p (r2 v)) a ->
  a = map (fun ui => vm (vmul ui (V3 s0 s1 s2)) v) (zip3 c0 c1 c2).
Proof.
  intros v a c0 c1 c2 s0 s1 s2 Ex. revert c0 c1 c2.
  induction a as [|p a IH]; intros [|x c0] [|y c1] [|z c2] L0 L1 L2 K0 K1 K2;
    simpl in *; try discriminate; auto.
  injection K0 as K0h K0t. injection K1 as K1h K1t. injection K2 as K2h K2t.
  f_equal.
  - rewrite (Ex p) at 1. unfold vmul; simpl. rewrite K0h, K1h, K2h. reflexivity.
  - apply IH; auto.
Qed.

Theorem svd_sig : forall a, (3 <= length a)%nat ->
  { r : list vec3 * vec3 * mat3 | is_svd a (fst (fst r)) (snd (fst r)) (snd r) }.
Proof.
  intros a Hn.
  destruct (spectral_sorted (gram a) (gram_sym a)) as [v ((Ho & B01 & B02 & B12) & S01 & S12)].
  set (l0 := bil (gram a) (r0 v) (r0 v)) in *.
  set (l1 := bil (gram a) (r1 v) (r1 v)) in *.
  set (l2 := bil (gram a) (r2 v) (r2 v)) in *.
  assert (P0 : 0 <= l0) by apply gram_psd.
  assert (P1 : 0 <= l1) by apply gram_psd.
  assert (P2 : 0 <= l2) by apply gram_psd.
  set (s := V3 (sqrt l0) (sqrt l1) (sqrt l2)).
  assert (Q0 := sqrt_sqrt l0 P0). assert (Q1 := sqrt_sqrt l1 P1). assert (Q2 := sqrt_sqrt l2 P2).
  assert (CD : forall k j sk sj, sk <> 0 -> sj <> 0 ->
     dotl (col k sk a) (col j sj a) = bil (gram a) k j / (sk * sj)).
  { intros. unfold col. rewrite dotl_map, gram_bil.
    rewrite (sumf_ext _ _ (fun p => (/ (sk * sj)) * (dot p k * dot p j))).
    - rewrite sumf_scal. field. auto.
    - intros; field; auto. }
  (* first column *)
  assert (C0 : { c : list R | length c = length a /\ dotl c c = 1 /\
              (sqrt l0 <> 0 -> c = col (r0 v) (sqrt l0) a) }).
  { destruct (Req_EM_T (sqrt l0) 0) as [h|h].
    - destruct (complete_cols (repeat 0 (length a)) (repeat 0 (length a))) as [w (W1 & W2 & _)];
        rewrite ?repeat_length; auto.
      exists w. rewrite repeat_length in W1. repeat split; auto. intros; contradiction.
    - exists (col (r0 v) (sqrt l0) a). repeat split; auto.
      + unfold col; apply map_length.
      + rewrite CD by auto. fold l0. rewrite <- Q0 at 1. field. auto. }
  destruct C0 as [c0 (L0 & N0 & E0)].
  assert (C1 : { c : list R | length c = length a /\ dotl c c = 1 /\ dotl c0 c = 0 /\
              (sqrt l1 <> 0 -> c = col (r1 v) (sqrt l1) a) }).
  { destruct (Req_EM_T (sqrt l1) 0) as [h|h].
    - destruct (complete_cols c0 c0) as [w (W1 & W2 & W3 & _)]; rewrite ?L0; auto.
      exists w. rewrite L0 in W1. repeat split; auto. intros; contradiction.
    - exists (col (r1 v) (sqrt l1) a). repeat split; auto.
      + unfold col; apply map_length.
      + rewrite CD by auto. fold l1. rewrite <- Q1 at 1. field. auto.
      + assert (sqrt l0 <> 0).
        { apply Rgt_not_eq. pose proof (sqrt_pos l1). pose proof (sqrt_le_1_alt _ _ S01). lra. }
        rewrite E0 by auto. rewrite CD by auto. rewrite B01. field. auto. }
  destruct C1 as [c1 (L1 & N1 & N01 & E1)].
  assert (C2 : { c : list R | length c = length a /\ dotl c c = 1 /\ dotl c0 c = 0 /\ dotl c1 c = 0 /\
              (sqrt l2 <> 0 -> c = col (r2 v) (sqrt l2) a) }).
  { destruct (Req_EM_T (sqrt l2) 0) as [h|h].
    - destruct (complete_cols c0 c1) as [w (W1 & W2 & W3 & W4)]; rewrite ?L0, ?L1; auto.
      exists w. rewrite L0 in W1. repeat split; auto. intros; contradiction.
    - exists (col (r2 v) (sqrt l2) a).
      assert (sqrt l1 <> 0).
      { apply Rgt_not_eq. pose proof (sqrt_pos l2). pose proof (sqrt_le_1_alt _ _ S12). lra. }
      assert (sqrt l0 <> 0).
      { apply Rgt_not_eq. pose proof (sqrt_pos l1). pose proof (sqrt_le_1_alt _ _ S01). lra. }
      repeat split; auto.
      + unfold col; apply map_length.
      + rewrite CD by auto. fold l2. rewrite <- Q2 at 1. field. auto.
      + rewrite E0 by auto. rewrite CD by auto. rewrite B02. field. auto.
      + rewrite E1 by auto. rewrite CD by auto. rewrite B12. field. auto. }
  destruct C2 as [c2 (L2 & N2 & N02 & N12 & E2)].
  exists (zip3 c0 c1 c2, s, v). simpl fst; simpl snd.
  destruct (zip3_sums c0 c1 c2) as (Z1 & Z2 & Z3 & Z4 & Z5 & Z6); try lia.
  constructor; try lra; auto.
  2:{ unfold s; simpl. apply sqrt_le_1_alt; auto. }
  2:{ unfold s; simpl. apply sqrt_le_1_alt; auto. }
  2:{ unfold s; simpl. apply sqrt_pos. }
  (* factorisation *)
  assert (Zk : forall k, bil (gram a) k k = 0 -> forall p, In p a -> dot p k = 0).
  { intros k Hk p Hp. rewrite gram_bil in Hk.
    assert (X : dot p k * dot p k = 0).
    { apply (sumf_zero_all _ (fun p => dot p k * dot p k) a); auto. intros; nra. }
    nra. }
  assert (K : forall (l : R) (vk : vec3) (c : list R), 0 <= l -> l = bil (gram a) vk vk ->
     (sqrt l <> 0 -> c = col vk (sqrt l) a) -> length c = length a ->
     map (fun x => x * sqrt l) c = map (fun p => dot p vk) a).
  { intros l vk c Hl El Hc Lc. destruct (Req_EM_T (sqrt l) 0) as [h|h].
    - assert (l = 0) by (rewrite <- (sqrt_sqrt l Hl), h; ring).
      assert (forall p, In p a -> dot p vk = 0) by (apply Zk; lra).
      rewrite h. clear - Lc H0. revert a Lc H0.
      induction c as [|x c IHc]; intros [|q a] Lc H0; simpl in *; try discriminate; auto.
      f_equal. { rewrite H0 by auto. ring. } apply IHc; auto.
    - rewrite Hc by auto. unfold col. rewrite map_map. apply map_ext. intros; field; auto. }
  assert (K0 := K l0 (r0 v) c0 P0 eq_refl E0 L0).
  assert (K1 := K l1 (r1 v) c1 P1 eq_refl E1 L1).
  assert (K2 := K l2 (r2 v) c2 P2 eq_refl E2 L2).
  assert (Ex : forall p, p = vm (V3 (dot p (r0 v)) (dot p (r1 v)) (dot p (r2 v))) v).
  { intros p. pose proof (orthonormal_expand v p Ho) as X. unfold mv in X.
    rewrite !(dot_comm p). symmetry; exact X. }
  unfold s. apply factor_cols; auto.
Qed.

(** A total function meeting the LAPACK contract on every array with at least
    three rows. *)
Definition svd_ref (a : list vec3) : list vec3 * vec3 * mat3 :=
  match le_dec 3 (length a) with
  | left h => proj1_sig (svd_sig a h)
  | right _ => ([], vzero, mid)
  end.

Theorem svd_ref_ok : forall a, (3 <= length a)%nat -> svd_ok_on svd_ref a.
Proof.
  intros a H. unfold svd_ok_on, svd_ref. destruct (le_dec 3 (length a)); [|contradiction].
  destruct (svd_sig a l) as [[[u s] v] Hs]; simpl in *; auto.
Qed.
