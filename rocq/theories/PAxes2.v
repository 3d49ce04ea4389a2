(** C192-C195: regression and Jolliffe axes, keyword arguments of the error axes. *)
From Coq Require Import Reals Lra Lia List Psatz Permutation Arith Bool String.
From Verif Require Import RVec Trig LNum SpecPlane SpecConics SpecAxes2 MConics MPca LSvd LPca LFit LAngles LFit2 LExamples
  MAxes LAxes MHyper PHyper PAxes MAxes2.
Import ListNotations.
Open Scope R_scope.

(** ** C192: regression in the principal frame *)
Lemma third_zero : forall a u s v, is_svd a u s v -> vy s = 0 -> vz s = 0.
Proof. intros a u s v [] H. lra. Qed.
Lemma second_zero : forall svd arr f, lapack svd ->
  PCAOrientation svd arr None None = Ok f -> (vy (p_s f) = 0 <-> collinear arr).
Proof.
  intros svd arr f HL HF.
  destruct (fit_inv _ _ _ HL HF) as (Hn & u & m & Hs & Hm & _ & _ & Em & _).
  split.
  - intros Z. pose proof (third_zero _ _ _ _ Hs Z) as Z2. exists m, (r0 (p_axes f)).
    intros p Hp. pose proof (centered_mean m arr Hm) as C. pose proof (svd_fact _ _ _ _ Hs) as Fa.
    assert (I : In (vsub p m) (centered arr)) by (rewrite C; apply in_map_iff; eauto).
    rewrite Fa in I. apply in_map_iff in I. destruct I as (q & E & _).
    exists (vx q * vx (p_s f)). replace p with (vadd m (vsub p m)) by (destruct p, m; vring).
    rewrite <- E. unfold vm, vmul. cbn [vx vy vz]. rewrite Z, Z2. apply vec3_eq; vunf; ring.
  - intros (p0 & d & H).
    (* centred points are multiples of d *)
    assert (L0 : arr <> []) by (intro; subst; simpl in Hn; lia).
    assert (Cm : exists k, vsub m p0 = vscale k d).
    { destruct Hm as [_ Hm].
      assert (S : exists k, vsum arr = vadd (vscale (INR (List.length arr)) p0) (vscale k d)).
      { clear - H. induction arr as [|p l IH].
        - exists 0. unfold vsum; simpl. apply vec3_eq; vunf; ring.
        - destruct (IH ltac:(intros; apply H; now right)) as [k E]. destruct (H p ltac:(now left)) as [k' E'].
          exists (k + k'). unfold vsum in *. rewrite (S_INR (List.length l) : INR (List.length (p :: l)) = _).
          cbn [sumf]. injection E as X Y Z. subst p. apply vec3_eq; vunf; simpl in *; lra. }
      destruct S as [k E]. rewrite E in Hm. exists (k / INR (List.length arr)).
      assert (N0 : INR (List.length arr) <> 0) by (apply not_0_INR; destruct arr; [congruence|discriminate]).
      injection Hm as X Y Z. apply vec3_eq; vunf;
      match goal with |- ?l = _ => apply Rmult_eq_reg_l with (INR (List.length arr)); [|auto] end;
      match goal with |- _ = ?n * (k / ?n * ?x) => replace (n * (k / n * x)) with (k * x) by (field; auto) end; lra. }
    destruct Cm as [km Ekm].
    assert (Hc : forall q, In q (centered arr) -> exists k, q = vscale k d).
    { intros q. rewrite (centered_mean m arr Hm). intros I. apply in_map_iff in I. destruct I as (p & <- & Ip).
      destruct (H p Ip) as [k ->]. exists (k - km).
      replace (vsub (vadd p0 (vscale k d)) m) with (vsub (vscale k d) (vsub m p0)) by (destruct p0, m, d; vring).
      rewrite Ekm. destruct d; vring. }
    assert (K : exists K, forall x y, Q (centered arr) x y = K * (dot d x * dot d y)).
    { generalize Hc. generalize (centered arr) as l. induction l as [|q l IH]; intros Hl.
      - exists 0. intros. unfold Q; simpl. ring.
      - destruct (IH ltac:(intros; apply Hl; now right)) as [K EK]. destruct (Hl q ltac:(now left)) as [k ->].
        exists (K + k * k). intros x y. unfold Q in *. simpl. rewrite EK, !dot_scale_l. ring. }
    destruct K as [K EK]. destruct (Q_axes _ _ _ _ Hs) as (A0 & A1 & _). destruct (Q_offdiag _ _ _ _ Hs) as (B0 & _).
    rewrite EK in A0, A1, B0. pose proof (svd_s01 _ _ _ _ Hs). pose proof (svd_s12 _ _ _ _ Hs). pose proof (svd_s2 _ _ _ _ Hs).
    assert (P : vx (p_s f) * vx (p_s f) * (vy (p_s f) * vy (p_s f)) = 0).
    { rewrite <- A0, <- A1.
      transitivity ((K * (dot d (r0 (p_axes f)) * dot d (r1 (p_axes f)))) * (K * (dot d (r0 (p_axes f)) * dot d (r1 (p_axes f))))); [ring|].
      rewrite B0. ring. }
    assert (W : (vx (p_s f) * vy (p_s f)) = 0) by (apply Rsqr_0_uniq; unfold Rsqr; lra).
    apply Rmult_integral in W. destruct W; lra.
Qed.

Definition gram_diag (f : pca) : vecn := fun i =>
  match i with O => vx (p_s f) * vx (p_s f) | 1%nat => vy (p_s f) * vy (p_s f) | _ => INR (p_n f) end.
Lemma rotated_length : forall svd arr f, lapack svd -> PCAOrientation svd arr None None = Ok f ->
  List.length (rotated f) = List.length arr /\ p_n f = List.length arr.
Proof.
  intros svd arr f HL HF. destruct (fit_inv _ _ _ HL HF) as (_ & u & m & _ & _ & _ & Ea & _ & _ & En & _).
  split; auto. unfold rotated. rewrite map_length, Ea. apply centered_length.
Qed.
Lemma gram_value : forall svd arr f, lapack svd -> PCAOrientation svd arr None None = Ok f ->
  meq 3 3 (reg_gram (rotated f)) (diagn (gram_diag f)) /\ (forall i, (i < 3)%nat -> reg_rhs (rotated f) i = 0).
Proof.
  intros svd arr f HL HF. destruct (rotated_mean0 _ _ _ HL HF) as (M0 & M1 & M2).
  destruct (rotated_moments _ _ _ HL HF) as (Q0 & Q1 & Q2 & Q01 & Q02 & Q12).
  destruct (rotated_length _ _ _ HL HF) as [L N].
  assert (X : forall g, sumf (fun p => 1 * g p) (rotated f) = sumf g (rotated f)) by (intros; apply sumf_ext; intros; ring).
  assert (Y : forall g, sumf (fun p => g p * 1) (rotated f) = sumf g (rotated f)) by (intros; apply sumf_ext; intros; ring).
  assert (Q10 : sumf (fun q => vy q * vx q) (rotated f) = 0) by (rewrite <- Q01; apply sumf_ext; intros; ring).
  split.
  - intros i j I J. unfold reg_gram, diagn, gram_diag, design.
    destruct i as [|[|[|i]]]; [| | |lia]; (destruct j as [|[|[|j]]]; [| | |lia]); cbn [Nat.eqb];
      rewrite ?X, ?Y; auto.
    rewrite sumf_const, L, N. ring.
  - intros i I. unfold reg_rhs, design. destruct i as [|[|[|i]]]; [| | |lia]; rewrite ?X; auto.
Qed.
Theorem C192_line : forall inv svd arr f, numpy_inv inv -> lapack svd ->
  PCAOrientation svd arr None None = Ok f ->
  (regression_fit inv f = Raise LinAlgError <-> collinear arr).
Proof.
  intros inv svd arr f HI HL HF. rewrite <- (second_zero _ _ _ HL HF).
  destruct (gram_value _ _ _ HL HF) as [G _]. unfold regression_fit.
  pose proof (HI 3%nat (reg_gram (rotated f))) as H.
  destruct (fit_inv _ _ _ HL HF) as (Hn & u & m & Hs & _ & _ & _ & _ & _ & En & _).
  pose proof (svd_s01 _ _ _ _ Hs). pose proof (svd_s12 _ _ _ _ Hs). pose proof (svd_s2 _ _ _ _ Hs).
  destruct (inv 3%nat (reg_gram (rotated f))) as [B|]; split; try discriminate; auto.
  - intros Z. exfalso. apply (diag_singular 3 (gram_diag f) 1 ltac:(lia)). { simpl. rewrite Z. ring. }
    exists B. eapply inverse_ext; [exact G|apply meq_refl|exact H].
  - intros _. destruct (Req_EM_T (vy (p_s f)) 0) as [|N]; auto. exfalso. apply H.
    exists (diagn (fun i => / gram_diag f i)). eapply inverse_ext; [apply meq_sym, G|apply meq_refl|].
    apply diag_inverse. intros i I. destruct i as [|[|[|i]]]; [| | |lia]; simpl.
    + nra. + nra. + rewrite En. apply not_0_INR. lia.
Qed.
Lemma regression_fit_value : forall inv svd arr f, numpy_inv inv -> lapack svd ->
  PCAOrientation svd arr None None = Ok f -> ~ collinear arr ->
  exists B b, regression_fit inv f = Ok (B, b) /\ b 0%nat = 0 /\ b 1%nat = 0 /\ b 2%nat = 0 /\
    B 0%nat 0%nat = / (vx (p_s f) * vx (p_s f)) /\ B 1%nat 1%nat = / (vy (p_s f) * vy (p_s f)) /\
    B 2%nat 2%nat = / INR (List.length arr).
Proof.
  intros inv svd arr f HI HL HF NC.
  pose proof (C192_line inv _ _ _ HI HL HF) as LE. pose proof (second_zero _ _ _ HL HF) as SZ.
  destruct (gram_value _ _ _ HL HF) as [G R].
  destruct (fit_inv _ _ _ HL HF) as (Hn & u & m & Hs & _ & _ & _ & _ & _ & En & _).
  pose proof (svd_s01 _ _ _ _ Hs). pose proof (svd_s12 _ _ _ _ Hs). pose proof (svd_s2 _ _ _ _ Hs).
  assert (P1 : vy (p_s f) <> 0) by tauto.
  unfold regression_fit in *. pose proof (HI 3%nat (reg_gram (rotated f))) as H2.
  destruct (inv 3%nat (reg_gram (rotated f))) as [B|]; [|tauto].
  exists B, (mulv 3 B (reg_rhs (rotated f))). split; auto.
  assert (Z : forall i, mulv 3 B (reg_rhs (rotated f)) i = 0).
  { intros i. unfold mulv. simpl. rewrite !R by lia. ring. }
  do 3 (split; [apply Z|]).
  assert (D : is_inverse 3 (diagn (gram_diag f)) (diagn (fun i => / gram_diag f i))).
  { apply diag_inverse. intros i I. destruct i as [|[|[|i]]]; [| | |lia]; simpl.
    + nra. + nra. + rewrite En. apply not_0_INR. lia. }
  pose proof (inverse_unique 3 _ _ _ _ G H2 D) as E.
  rewrite (E 0 0)%nat, (E 1 1)%nat, (E 2 2)%nat by lia. unfold diagn; simpl. now rewrite En.
Qed.
Theorem C192_plane : forall inv svd arr f, numpy_inv inv -> lapack svd ->
  PCAOrientation svd arr None None = Ok f -> ~ collinear arr ->
  regression_plane (rotated f) 0 0 0 /\
  exists B b, regression_fit inv f = Ok (B, b) /\ b 0%nat = 0 /\ b 1%nat = 0 /\ b 2%nat = 0.
Proof.
  intros inv svd arr f HI HL HF NC. split.
  - destruct (rotated_mean0 _ _ _ HL HF) as (M0 & M1 & M2).
    destruct (rotated_moments _ _ _ HL HF) as (Q0 & Q1 & Q2 & Q01 & Q02 & Q12).
    destruct (rotated_length _ _ _ HL HF) as [L N].
    assert (P1 : vy (p_s f) <> 0) by (rewrite (second_zero _ _ _ HL HF); auto).
    destruct (fit_inv _ _ _ HL HF) as (Hn & u & m & Hs & _).
    pose proof (svd_s01 _ _ _ _ Hs). pose proof (svd_s12 _ _ _ _ Hs). pose proof (svd_s2 _ _ _ _ Hs).
    assert (V : forall a b c, vertical_error (rotated f) a b c =
      vz (p_s f) * vz (p_s f) + a * a * (vx (p_s f) * vx (p_s f)) + b * b * (vy (p_s f) * vy (p_s f)) + c * c * INR (List.length arr)).
    { intros a b c. unfold vertical_error. rewrite <- L, <- Q0, <- Q1, <- Q2.
      transitivity (sumf (fun q => vz q * vz q) (rotated f) + a * a * sumf (fun q => vx q * vx q) (rotated f)
        + b * b * sumf (fun q => vy q * vy q) (rotated f) + c * c * INR (List.length (rotated f))
        - 2 * a * sumf (fun q => vx q * vz q) (rotated f) - 2 * b * sumf (fun q => vy q * vz q) (rotated f)
        - 2 * c * sumf vz (rotated f) + 2 * a * b * sumf (fun q => vx q * vy q) (rotated f)
        + 2 * a * c * sumf vx (rotated f) + 2 * b * c * sumf vy (rotated f)).
      - generalize (rotated f) as l. induction l as [|p l IH]; [simpl; ring|].
        rewrite (S_INR (List.length l) : INR (List.length (p :: l)) = _). cbn [sumf]. rewrite IH. ring.
      - rewrite Q02, Q12, Q01, M0, M1, M2. ring. }
    intros a b c NE. rewrite !V.
    assert (N0 : 0 < INR (List.length arr)) by (apply lt_0_INR; lia).
    assert (0 < vy (p_s f)) by lra. assert (0 < vx (p_s f)) by lra.
    assert (Y0 : 0 < vx (p_s f) * vx (p_s f)) by nra. assert (Y1 : 0 < vy (p_s f) * vy (p_s f)) by nra.
    assert (G : forall x k, 0 < k -> 0 <= x * x * k) by (intros; apply Rmult_le_pos; [apply Rle_0_sqr|lra]).
    assert (G' : forall x k, 0 < k -> x <> 0 -> 0 < x * x * k) by (intros; apply Rmult_lt_0_compat; auto; apply Rsqr_pos_lt; auto).
    pose proof (G a _ Y0). pose proof (G b _ Y1). pose proof (G c _ N0).
    destruct (Req_EM_T a 0) as [->|A]; [destruct (Req_EM_T b 0) as [->|B]; [destruct (Req_EM_T c 0) as [->|C]|]|].
    + congruence. + pose proof (G' c _ N0 C). lra. + pose proof (G' b _ Y1 B). lra. + pose proof (G' a _ Y0 A). lra.
  - destruct (regression_fit_value inv _ _ _ HI HL HF NC) as (B & b & E & b0 & b1 & b2 & _). exists B, b. auto.
Qed.
Lemma reg_mse_value : forall svd arr f b, lapack svd -> PCAOrientation svd arr None None = Ok f ->
  b 0%nat = 0 -> b 1%nat = 0 -> b 2%nat = 0 ->
  reg_mse (rotated f) b = vz (p_s f) * vz (p_s f) / INR (List.length arr).
Proof.
  intros svd arr f b HL HF b0 b1 b2. unfold reg_mse. destruct (rotated_length _ _ _ HL HF) as [L _]. rewrite L.
  destruct (rotated_moments _ _ _ HL HF) as (_ & _ & Q2 & _). rewrite <- Q2. f_equal. apply sumf_ext.
  intros p _. cbn [sumn]. rewrite b0, b1, b2. ring.
Qed.
(** ratio of the singular values, per standard error; third: squared error of the mean *)
Theorem C192_axes : forall inv st svd arr f conf sigma, numpy_inv inv -> lapack svd ->
  PCAOrientation svd arr None None = Ok f -> ~ collinear arr ->
  chi2_ppf st conf 2 = Some sigma -> 0 < sigma ->
  let n := INR (List.length arr) in
  (0 < vz (p_s f) ->
   regression_axes inv st conf f =
     Ok (V3 (vx (p_s f) * sqrt n / (sigma * vz (p_s f))) (vy (p_s f) * sqrt n / (sigma * vz (p_s f)))
            ((sigma * vz (p_s f) / n) * (sigma * vz (p_s f) / n)))) /\
  (vz (p_s f) = 0 -> regression_axes inv st conf f = NonFinite).
Proof.
  intros inv st svd arr f conf sigma HI HL HF NC HS P n.
  destruct (regression_fit_value inv _ _ _ HI HL HF NC) as (B & b & E & b0 & b1 & b2 & B0 & B1 & B2).
  unfold regression_axes. rewrite E. cbn [rbind]. rewrite (reg_mse_value _ _ _ _ HL HF b0 b1 b2). fold n in B2 |- *.
  rewrite HS. cbn [obind]. rewrite B0, B1, B2.
  destruct (fit_inv _ _ _ HL HF) as (Hn & u & m & Hs & _).
  pose proof (svd_s01 _ _ _ _ Hs) as s01. pose proof (svd_s12 _ _ _ _ Hs) as s12. pose proof (svd_s2 _ _ _ _ Hs) as s2.
  assert (P1 : vy (p_s f) <> 0) by (rewrite (second_zero _ _ _ HL HF); auto).
  set (x := vx (p_s f)) in *. set (y := vy (p_s f)) in *. set (z := vz (p_s f)) in *. clearbody x y z.
  assert (N0 : 0 < n) by (apply lt_0_INR; lia). clearbody n.
  assert (0 < y) by lra. assert (0 < x) by lra.
  assert (SN : 0 < sqrt n) by (apply sqrt_lt_R0; auto). assert (SS : sqrt n * sqrt n = n) by (apply sqrt_sqrt; lra).
  assert (R : forall d, 0 < d -> z * z / n * / (d * d) = (z / (sqrt n * d)) * (z / (sqrt n * d))).
  { intros d Hd. rewrite <- SS at 1. field. lra. }
  assert (R2 : z * z / n * / n = (z / n) * (z / n)) by (field; lra).
  rewrite (R x), (R y), R2 by auto.
  assert (D : forall d, 0 < d -> 0 <= z / (sqrt n * d)).
  { intros d Hd. apply Rmult_le_pos; auto. apply Rlt_le, Rinv_0_lt_compat, Rmult_lt_0_compat; auto. }
  assert (D2 : 0 <= z / n) by (apply Rmult_le_pos; auto; apply Rlt_le, Rinv_0_lt_compat; auto).
  rewrite vsqrt_some by (cbn [vx vy vz]; apply Rle_0_sqr). cbn [obind vscale vx vy vz].
  rewrite !sqrt_square by auto. unfold fdiv. split; intros Z.
  - assert (G : forall d, 0 < d -> 0 < sigma * (z / (sqrt n * d))).
    { intros d Hd. apply Rmult_lt_0_compat; auto. apply Rdiv_lt_0_compat; auto. apply Rmult_lt_0_compat; auto. }
    pose proof (G x ltac:(auto)). pose proof (G y ltac:(auto)).
    destruct (Req_EM_T (sigma * (z / (sqrt n * x))) 0); [lra|]. destruct (Req_EM_T (sigma * (z / (sqrt n * y))) 0); [lra|].
    cbn [obind]. f_equal. apply vec3_eq; cbn [vx vy vz]; field; lra.
  - subst z. replace (sigma * (0 / (sqrt n * x))) with 0 by (field; lra).
    destruct (Req_EM_T 0 0); [reflexivity|congruence].
Qed.

(** ** C193: regression axes and the unit of length *)
Lemma collinear_scale : forall k arr, k <> 0 -> collinear (map (vscale k) arr) -> collinear arr.
Proof.
  intros k arr K (p0 & d & H). exists (vscale (/ k) p0), (vscale (/ k) d). intros p Hp.
  destruct (H (vscale k p) ltac:(now apply in_map)) as [t E]. exists t.
  replace p with (vscale (/ k) (vscale k p)) by (destruct p; apply vec3_eq; vunf; field; auto).
  rewrite E. destruct p0, d; vring.
Qed.
Theorem C193_scaled : forall inv st svd1 svd2 arr f1 f2 conf sigma k, numpy_inv inv -> lapack svd1 -> lapack svd2 -> 0 < k ->
  PCAOrientation svd1 arr None None = Ok f1 ->
  PCAOrientation svd2 (map (vscale k) arr) None None = Ok f2 ->
  ~ collinear arr -> 0 < vz (p_s f1) -> chi2_ppf st conf 2 = Some sigma -> 0 < sigma ->
  exists a, regression_axes inv st conf f1 = Ok a /\ 0 < vx a /\ 0 < vy a /\ 0 < vz a /\
    regression_axes inv st conf f2 = Ok (V3 (vx a) (vy a) (k * k * vz a)).
Proof.
  intros inv st svd1 svd2 arr f1 f2 conf sigma k HI L1 L2 K F1 F2 NC Z HS P.
  destruct (C192_axes inv st _ _ _ conf sigma HI L1 F1 NC HS P) as [A _].
  assert (NC2 : ~ collinear (map (vscale k) arr)) by (intro C; apply NC; apply (collinear_scale k); auto; lra).
  destruct (C192_axes inv st _ _ _ conf sigma HI L2 F2 NC2 HS P) as [B _].
  destruct (scale_fits _ _ _ _ _ _ L1 L2 K F1 F2) as (S & _). rewrite S, map_length in B. cbn [vscale vx vy vz] in B.
  rewrite (A Z), B by nra.
  destruct (fit_inv _ _ _ L1 F1) as (Hn & u & m & Hs & _).
  pose proof (svd_s01 _ _ _ _ Hs) as s01. pose proof (svd_s12 _ _ _ _ Hs) as s12.
  assert (N0 : 0 < INR (List.length arr)) by (apply lt_0_INR; lia).
  assert (SN : 0 < sqrt (INR (List.length arr))) by (apply sqrt_lt_R0; auto).
  assert (D0 : 0 < sigma * vz (p_s f1)) by nra.
  eexists. split; [reflexivity|]. cbn [vx vy vz].
  do 2 (split; [apply Rdiv_lt_0_compat; [apply Rmult_lt_0_compat|]; lra|]).
  split. { apply Rmult_lt_0_compat; apply Rdiv_lt_0_compat; lra. }
  f_equal. apply vec3_eq; cbn [vx vy vz]; field; lra.
Qed.
(** so the angles made from them change with the unit *)
Theorem C193_unit_refuted : forall a k, 0 < vx a -> 0 < vy a -> 0 < vz a -> 0 < k -> k <> 1 ->
  angular_errors (V3 (vx a) (vy a) (k * k * vz a)) <> angular_errors a.
Proof.
  intros a k A0 A1 A2 K N. rewrite !angular_errors_value by (unfold nonneg3; simpl; repeat split; nra).
  cbn [vx vy vz]. intros E. injection E as E _.
  rewrite sqrt_mult, sqrt_square in E by nra.
  assert (S0 : 0 < sqrt (vx a)) by (apply sqrt_lt_R0; auto). assert (S2 : 0 < sqrt (vz a)) by (apply sqrt_lt_R0; auto).
  destruct (Rtotal_order k 1) as [C|[C|C]]; [|lra|].
  - pose proof (atan2_lt_num (k * sqrt (vz a)) (sqrt (vz a)) (sqrt (vx a)) S0 ltac:(nra) ltac:(nra)). lra.
  - pose proof (atan2_lt_num (sqrt (vz a)) (k * sqrt (vz a)) (sqrt (vx a)) S0 ltac:(nra) ltac:(nra)). lra.
Qed.
Example C192_ex : exists f, PCAOrientation svd_ref tilted_data None None = Ok f /\ 0 < vz (p_s f) /\ ~ collinear tilted_data /\
  chi2_ppf (const_stats 7) (95/100) 2 = Some 7.
Proof.
  destruct tilted_fit as (f & H & _ & G & P). exists f. do 2 (split; auto). split; auto.
  rewrite <- (second_zero _ _ _ lapack_ref H). lra.
Qed.
Example C193_ex : exists f1 f2 : pca, PCAOrientation svd_ref tilted_data None None = Ok f1 /\
  PCAOrientation svd_ref (map (vscale 3) tilted_data) None None = Ok f2.
Proof.
  destruct C192_ex as (f & H & _). destruct (fit_exists svd_ref (map (vscale 3) tilted_data) lapack_ref) as [f2 F2]; [simpl; lia|].
  exists f, f2. auto.
Qed.

(** ** C194: Jolliffe's bounds *)
Theorem C194_wrong_side : forall ppf svd arr f conf a, lapack svd ->
  PCAOrientation svd arr None None = Ok f -> symmetric_quantile ppf -> 0 < conf < 1 ->
  jolliffe_axes ppf conf f = Some a ->
  exists e, eigenvalues f = Some e /\
    let n := INR (List.length arr) in
    (* the lower bounds are above the estimates they should be below *)
    (0 < vx e -> vx e * (n - 1) / n < vx a) /\ (0 < vy e -> vy e * (n - 1) / n < vy a) /\
    (0 < vz e -> vz a < vz e / n).
Proof.
  intros ppf svd arr f conf a HL HF [Q0 QM] HC H.
  destruct (fit_has_facts _ _ _ HL HF) as (e & [E (S2 & S1 & S0) N N3]). exists e. split; auto. intros n. fold n in N, N3.
  unfold jolliffe_axes in H. rewrite E, N in H. cbn [obind] in H.
  unfold fdiv in H. destruct (Req_EM_T n 0); [lra|]. cbn [obind] in H.
  destruct (ppf (conf / 2)) as [z|] eqn:EZ; [|discriminate]. cbn [obind] in H.
  destruct (Req_EM_T (n - 1) 0); [lra|]. cbn [obind] in H.
  assert (PQ : 0 < 2 / (n - 1)) by (apply Rdiv_lt_0_compat; lra).
  rewrite fsqrt_some in H by lra. cbn [obind] in H.
  assert (PT : 0 < sqrt (2 / (n - 1))) by (apply sqrt_lt_R0; auto). set (tau := sqrt (2 / (n - 1))) in *. clearbody tau.
  assert (Z : z < 0) by (apply (QM (conf / 2) (1 / 2)); auto; lra).
  unfold fsqrt in H. destruct (Rlt_dec (1 + tau * z) 0) as [|NN]; [discriminate|]. cbn [obind] in H.
  destruct (Req_EM_T (sqrt (1 + tau * z)) 0) as [|NZ]; [discriminate|]. cbn [obind] in H. injection H as <-.
  cbn [vscale vx vy vz].
  assert (R1 : 0 < sqrt (1 + tau * z) < 1).
  { pose proof (sqrt_pos (1 + tau * z)). split; [lra|]. rewrite <- sqrt_1 at 2. apply sqrt_lt_1; nra. }
  set (r := sqrt (1 + tau * z)) in *. clearbody r.
  assert (I : 1 < / r) by (rewrite <- Rinv_1; apply Rinv_lt_contravar; lra).
  assert (G : forall x, 0 < x -> x * (n - 1) / n < 1 / r * ((n - 1) / n * x)).
  { intros x Hx. assert (0 < x * (n - 1) / n) by (apply Rdiv_lt_0_compat; nra).
    replace (1 / r * ((n - 1) / n * x)) with (/ r * (x * (n - 1) / n)) by (field; lra).
    rewrite <- (Rmult_1_l (x * (n - 1) / n)) at 1. apply Rmult_lt_compat_r; auto. }
  split; [auto|]. split; [auto|]. intros Hz. pose proof (G _ Hz).
  assert (vz e - vz e * (n - 1) / n = vz e / n) by (field; lra). lra.
Qed.
(** the greater the confidence asked for, the smaller the first two axes *)
Theorem C194_confidence : forall ppf svd arr f c c' a a', lapack svd ->
  PCAOrientation svd arr None None = Ok f -> symmetric_quantile ppf -> 0 < c -> c < c' -> c' < 2 ->
  jolliffe_axes ppf c f = Some a -> jolliffe_axes ppf c' f = Some a' ->
  exists e, eigenvalues f = Some e /\ (0 < vx e -> vx a' < vx a) /\ (0 < vy e -> vy a' < vy a) /\ (0 < vz e -> vz a < vz a').
Proof.
  intros ppf svd arr f c c' a a' HL HF [Q0 QM] C0 CC C1 H H'.
  destruct (fit_has_facts _ _ _ HL HF) as (e & [E (S2 & S1 & S0) N N3]). exists e. split; auto.
  set (n := INR (List.length arr)) in *.
  unfold jolliffe_axes in H, H'. rewrite E, N in H, H'. cbn [obind] in H, H'.
  unfold fdiv in H, H'. destruct (Req_EM_T n 0); [lra|]. cbn [obind] in H, H'.
  destruct (ppf (c / 2)) as [z|] eqn:EZ; [|discriminate]. destruct (ppf (c' / 2)) as [z'|] eqn:EZ'; [|discriminate].
  cbn [obind] in H, H'. destruct (Req_EM_T (n - 1) 0); [lra|]. cbn [obind] in H, H'.
  assert (PQ : 0 < 2 / (n - 1)) by (apply Rdiv_lt_0_compat; lra).
  rewrite fsqrt_some in H, H' by lra. cbn [obind] in H, H'.
  assert (PT : 0 < sqrt (2 / (n - 1))) by (apply sqrt_lt_R0; auto). set (tau := sqrt (2 / (n - 1))) in *. clearbody tau.
  assert (Z : z < z') by (apply (QM (c / 2) (c' / 2)); auto; lra).
  unfold fsqrt in H, H'. destruct (Rlt_dec (1 + tau * z) 0) as [|NN]; [discriminate|].
  destruct (Rlt_dec (1 + tau * z') 0) as [|NN']; [discriminate|]. cbn [obind] in H, H'.
  destruct (Req_EM_T (sqrt (1 + tau * z)) 0) as [|NZ]; [discriminate|].
  destruct (Req_EM_T (sqrt (1 + tau * z')) 0) as [|NZ']; [discriminate|]. cbn [obind] in H, H'.
  injection H as <-. injection H' as <-. cbn [vscale vx vy vz].
  assert (R : sqrt (1 + tau * z) < sqrt (1 + tau * z')) by (apply sqrt_lt_1; nra).
  pose proof (sqrt_pos (1 + tau * z)). set (r := sqrt (1 + tau * z)) in *. set (r' := sqrt (1 + tau * z')) in *. clearbody r r'.
  assert (I : 1 / r' < 1 / r). { unfold Rdiv. rewrite !Rmult_1_l. apply Rinv_lt_contravar; auto. nra. }
  assert (G : forall x, 0 < x -> 1 / r' * ((n - 1) / n * x) < 1 / r * ((n - 1) / n * x)).
  { intros x Hx. apply Rmult_lt_compat_r; auto. apply Rmult_lt_0_compat; auto. apply Rdiv_lt_0_compat; lra. }
  split; [auto|]. split; [auto|]. intros Hz. pose proof (G _ Hz). lra.
Qed.
Example C194_ex : symmetric_quantile (fun x => Some (x - 1 / 2)) /\ exists f a,
  PCAOrientation svd_ref tilted_data None None = Ok f /\ jolliffe_axes (fun x => Some (x - 1 / 2)) (95/100) f = Some a.
Proof.
  split. { split; [f_equal; lra|]. intros x y a b _ L _ A B. injection A as <-. injection B as <-. lra. }
  destruct tilted_fit as (f & H & _). exists f.
  destruct (fit_has_facts _ _ _ lapack_ref H) as (e & [E _ N N3]).
  assert (Nn : INR (List.length tilted_data) = 6) by (simpl; ring). rewrite Nn in N, N3.
  unfold jolliffe_axes. rewrite E, N. cbn [obind]. unfold fdiv.
  destruct (Req_EM_T 6 0); [lra|]. cbn [obind]. destruct (Req_EM_T (6 - 1) 0); [lra|]. cbn [obind].
  rewrite fsqrt_some by lra. cbn [obind].
  assert (S : 0 <= sqrt (2 / (6 - 1)) <= 1).
  { split; [apply sqrt_pos|]. apply Rle_trans with (sqrt 1); [apply sqrt_le_1; lra|rewrite sqrt_1; lra]. }
  replace (95 / 100 / 2 - 1 / 2) with (- 1 / 40) by lra. set (t := sqrt (2 / (6 - 1))) in *. clearbody t.
  rewrite fsqrt_some by lra. cbn [obind].
  assert (0 < sqrt (1 + t * (- 1 / 40))) by (apply sqrt_lt_R0; lra).
  destruct (Req_EM_T (sqrt (1 + t * (- 1 / 40))) 0); [lra|]. cbn [obind].
  eexists; split; [exact H|reflexivity].
Qed.

(** ** C195: keyword arguments of hyperbolic_axes *)
Lemma remove_absent : forall k d, lookup k d = None -> remove k d = d.
Proof.
  induction d as [|[k' v] t IH]; simpl; auto. destruct (String.eqb k k') eqn:E; [discriminate|].
  intros H. simpl. now rewrite IH.
Qed.
Lemma pop_eq : forall k dv d, pop k dv d = (match lookup k d with Some v => v | None => dv end, remove k d).
Proof. intros. unfold pop. destruct (lookup k d) eqn:E; auto. now rewrite remove_absent. Qed.
Lemma lookup_remove : forall k k' d, k <> k' -> lookup k (remove k' d) = lookup k d.
Proof.
  intros k k' d N. induction d as [|[j v] t IH]; simpl; auto.
  destruct (String.eqb_spec k' j) as [->|]; simpl.
  - rewrite IH. destruct (String.eqb_spec k j); congruence.
  - now rewrite IH.
Qed.
Lemma in_remove : forall kv k d, In kv (remove k d) <-> In kv d /\ fst kv <> k.
Proof.
  intros kv k d. unfold remove. rewrite filter_In. destruct (String.eqb_spec k (fst kv)); simpl.
  - split; intros [? ?]; [discriminate|congruence]. - split; intros [? ?]; auto.
Qed.
Lemma lookup_in : forall k d, lookup k d = None <-> ~ In k (map fst d).
Proof.
  induction d as [|[k' v] t IH]; simpl. { tauto. }
  destruct (String.eqb_spec k k') as [->|N]; split; intros H.
  - discriminate. - exfalso; auto. - intros [E|E]; [congruence|]. now apply IH. - apply IH. auto.
Qed.
Definition get (d : dict) (k : string) (dv : kval) : kval := match lookup k d with Some v => v | None => dv end.

Lemma number_finite : forall v, number v = NonFinite -> False.
Proof. intros [| |]; discriminate. Qed.

Lemma statistical_kw : forall st f m kw, lookup "method" kw = None ->
  statistical_axes_kw st (Fitted f) (("method"%string, KS m) :: kw) =
  let meth := if String.eqb m "sampling" then Some MSampling else if String.eqb m "noise" then Some MNoise else None in
  match meth with
  | None => Raise NameError
  | Some me =>
    rbind (number (get kw "confidence_level" (KR (95/100)))) (fun conf =>
    rbind (number (get kw "dof" (KR 2))) (fun dof =>
    match remove "variance_on_all_axes" (remove "chisq" (remove "dof" (remove "confidence_level" kw))) with
    | _ :: _ => Raise TypeError
    | [] => of_option (statistical_axes st
        (mkKw me conf dof (truth (get kw "chisq" (KB false))) (truth (get kw "variance_on_all_axes" (KB true)))) f)
    end))
  end.
Proof.
  intros st f m kw H. unfold statistical_axes_kw. rewrite pop_eq. cbn [lookup]. rewrite String.eqb_refl.
  unfold remove at 1. cbn [filter fst]. rewrite String.eqb_refl. cbn [negb].
  change (filter (fun kv : string * kval => negb (String.eqb "method" (fst kv))) kw) with (remove "method" kw).
  rewrite (remove_absent "method" kw H), !pop_eq. unfold get.
  rewrite !(lookup_remove "dof"), !(lookup_remove "chisq"), !(lookup_remove "variance_on_all_axes") by discriminate.
  destruct (String.eqb m "sampling"); cbn zeta; [|destruct (String.eqb m "noise")]; rewrite ?pop_eq;
  rewrite ?(lookup_remove "dof"), ?(lookup_remove "chisq"), ?(lookup_remove "variance_on_all_axes") by discriminate; reflexivity.
Qed.

(** Python's reading of a value as a number and as a condition *)
Definition numeric (v : kval) (r : R) : Prop := v = KR r \/ (v = KB true /\ r = 1) \/ (v = KB false /\ r = 0).
Definition falsy (v : kval) : Prop := v = KB false \/ v = KR 0 \/ v = KS "".
Lemma numeric_number : forall v r, numeric v r -> number v = Ok r.
Proof. intros v r [-> | [[-> ->] | [-> ->]]]; reflexivity. Qed.
Lemma falsy_truth : forall v b, (b = false <-> falsy v) -> truth v = b.
Proof.
  intros v b H. unfold falsy in H. destruct v as [r|c|t]; cbn [truth].
  - destruct (Req_EM_T r 0) as [->|N]; [symmetry; apply H; auto|]. destruct b; auto.
    destruct (proj1 H eq_refl) as [E|[E|E]]; try discriminate. injection E as E. contradiction.
  - destruct c; [|symmetry; apply H; auto]. destruct b; auto. destruct (proj1 H eq_refl) as [E|[E|E]]; discriminate.
  - destruct (String.eqb_spec t "") as [->|N]; cbn [negb]; [symmetry; apply H; auto|]. destruct b; auto.
    destruct (proj1 H eq_refl) as [E|[E|E]]; try discriminate. injection E as E. contradiction.
Qed.

(** numbers given to known keywords are used *)
Theorem C195_known : forall st f kw conf dof chisq all_axes,
  (forall k, In k (map fst kw) -> known_keyword k \/ k = "type"%string) ->
  numeric (get kw "confidence_level" (KR (95/100))) conf -> numeric (get kw "dof" (KR 2)) dof ->
  (chisq = false <-> falsy (get kw "chisq" (KB false))) -> (all_axes = false <-> falsy (get kw "variance_on_all_axes" (KB true))) ->
  hyperbolic_axes_kw st (Fitted f) kw =
  of_option (statistical_axes st
    (mkKw (match get kw "type" (KS "noise") with KS s => if String.eqb s "noise" then MNoise else MSampling | _ => MSampling end)
          conf dof chisq all_axes) f).
Proof.
  intros st f kw conf dof chisq all_axes HK HC HD HQ HV. apply numeric_number in HC, HD. apply falsy_truth in HQ, HV. subst chisq all_axes.
  unfold hyperbolic_axes_kw. rewrite pop_eq. fold (get kw "type" (KS "noise")).
  set (ty := get kw "type" (KS "noise")). set (kw' := remove "type" kw).
  assert (G : forall k dv, k <> "type"%string -> get kw' k dv = get kw k dv).
  { intros k dv N. unfold get, kw'. now rewrite lookup_remove. }
  assert (M : lookup "method" kw' = None).
  { unfold kw'. rewrite lookup_remove by discriminate. apply lookup_in. intros I. apply HK in I.
    destruct I as [[E|[E|[E|[E|[]]]]]|E]; discriminate. }
  unfold method_axes. rewrite M, statistical_kw by exact M.
  rewrite !G by discriminate. rewrite HC, HD. cbn [rbind].
  assert (E : remove "variance_on_all_axes" (remove "chisq" (remove "dof" (remove "confidence_level" kw'))) = []).
  { destruct (remove "variance_on_all_axes" _) as [|kv t] eqn:E; auto. exfalso.
    assert (I : In kv (kv :: t)) by now left. rewrite <- E in I.
    apply in_remove in I. destruct I as [I N1]. apply in_remove in I. destruct I as [I N2].
    apply in_remove in I. destruct I as [I N3]. apply in_remove in I. destruct I as [I N4].
    apply in_remove in I. destruct I as [I N5].
    destruct (HK (fst kv) ltac:(now apply in_map)) as [[K|[K|[K|[K|[]]]]]|K]; congruence. }
  rewrite E.
  destruct ty as [r|b|s]; [| |destruct (String.eqb s "noise")]; cbn [String.eqb]; cbn; destruct (statistical_axes _ _ _); reflexivity.
Qed.
(** any other keyword - even a second name for the method - and everything asked for is ignored *)
Theorem C195_unknown : forall st f kw k, In k (map fst kw) -> ~ known_keyword k -> k <> "type"%string ->
  hyperbolic_axes_kw st (Fitted f) kw = of_option (MAxes.hyperbolic_axes st f).
Proof.
  intros st f kw k I NK NT. unfold hyperbolic_axes_kw. rewrite pop_eq. set (kw' := remove "type" kw).
  set (noise := match _ with KS s => String.eqb s "noise" | _ => false end). clearbody noise.
  apply in_map_iff in I. destruct I as (kv & <- & I).
  assert (I' : In kv kw') by (apply in_remove; auto).
  assert (R : exists e, method_axes st (if noise then "noise" else "sampling")%string (Fitted f) kw' = Raise e).
  { unfold method_axes. destruct (lookup "method" kw') as [v|] eqn:M; [eauto|]. rewrite statistical_kw by exact M. cbn zeta.
    assert (MM : exists me, (if String.eqb (if noise then "noise" else "sampling") "sampling" then Some MSampling
       else if String.eqb (if noise then "noise" else "sampling") "noise" then Some MNoise else None) = Some me).
    { destruct noise; cbn; eauto. }
    destruct MM as [me ->].
    destruct (number _) as [c|x|] eqn:EC; cbn [rbind]; [|eauto|].
    2:{ exfalso. now apply number_finite in EC. }
    destruct (number (get kw' "dof" _)) as [c2|x|] eqn:EC2; cbn [rbind]; [|eauto|].
    2:{ exfalso. now apply number_finite in EC2. }
    destruct (remove "variance_on_all_axes" _) as [|kv0 t] eqn:E; [exfalso|eauto].
    assert (X : In kv []).
    { rewrite <- E. unfold known_keyword in NK. rewrite !in_remove. repeat split; auto; intros Q; apply NK; rewrite Q; simpl; auto. }
    inversion X. }
  destruct R as [e ->]. reflexivity.
Qed.
Theorem C195_reconstructed : forall st h kw, hyperbolic_axes_kw st (Given h) kw = Ok h.
Proof.
  intros st h kw. unfold hyperbolic_axes_kw. rewrite pop_eq. unfold method_axes.
  destruct (lookup "method" _); [reflexivity|]. unfold statistical_axes_kw. rewrite !pop_eq. reflexivity.
Qed.
(** so a level asked for can be ignored without notice *)
Theorem C195_level_refuted : exists st f kw h h', 
  lookup "confidence_level" kw = Some (KR (99/100)) /\
  statistical_axes st (mkKw MNoise (99/100) 2 false true) f = Some h /\
  hyperbolic_axes_kw st (Fitted f) kw = Ok h' /\ h <> h'.
Proof.
  destruct example_fit as (f & F & S & P & G).
  set (st := mkStats (fun c _ _ => Some c) (fun _ _ => Some 1)).
  destruct (fit_has_facts _ _ _ lapack_ref F) as (e & FF). pose proof FF as [E (S2 & S1 & S0) N N3].
  set (n := INR (List.length (axis_data 3 2 1))) in *.
  exists st, f, [("confidence_level"%string, KR (99/100)); ("level"%string, KR 1)],
    (axes_value (mkKw MNoise (99/100) 2 false true) (99/100) e n), (axes_value default_kw (95/100) e n).
  split; [reflexivity|].
  split. { apply stat_axes_value; auto; try reflexivity; lra. }
  split. { rewrite (C195_unknown st f _ "level"%string); simpl; auto; try discriminate.
    - unfold hyperbolic_axes, noise_axes.
      rewrite (stat_axes_value st default_kw f e n (95/100) FF eq_refl ltac:(lra)). reflexivity.
    - intros [K|[K|[K|[K|[]]]]]; discriminate. }
  intros X. apply (f_equal vz) in X. unfold axes_value, z_nominal, err_term, noise_term in X. cbn [vz k_method k_all_axes default_kw] in X.
  assert (Q : 0 < vz e).
  { unfold eigenvalues in E. destruct (Req_EM_T _ 0); [discriminate|]. injection E as <-. cbn [vz].
    destruct (fit_inv _ _ _ lapack_ref F) as (_ & u & m & _ & _ & _ & _ & _ & _ & En & _). rewrite En. simpl.
    apply Rdiv_lt_0_compat; nra. }
  assert (0 < sqrt (vz e * (vz e / (n - 2)))).
  { apply sqrt_lt_R0. apply Rmult_lt_0_compat; auto. apply Rdiv_lt_0_compat; lra. }
  lra.
Qed.
Example C195_ex : NoDup (map fst [("confidence_level"%string, KR (99/100)); ("type"%string, KS "sampling")]) /\
  number (get [("confidence_level"%string, KR (99/100)); ("type"%string, KS "sampling")] "confidence_level" (KR (95/100))) = Ok (99/100) /\
  ~ known_keyword "method".
Proof.
  split. { repeat constructor; simpl; intuition discriminate. }
  split; [reflexivity|]. intros [K|[K|[K|[K|[]]]]]; discriminate.
Qed.

(** ** C34: the variance of a mean.  With the default the variance, which is already divided by
    n - 1, is divided by n - 1 again instead of n. *)
Theorem C34_mean : forall v n ddof,
  (forall w, mean_estimator v n ddof = Some w <-> n <> ddof /\ w * (n - ddof) = v) /\
  (forall w, 1 < n -> mean_estimator v n 1 = Some w -> w = v / n * (n / (n - 1))).
Proof.
  assert (A : forall v n ddof w, mean_estimator v n ddof = Some w <-> n <> ddof /\ w * (n - ddof) = v).
  { intros v n ddof w. unfold mean_estimator, fdiv. destruct (Req_EM_T (n - ddof) 0) as [e|e]; split.
    - discriminate. - intros [N _]. exfalso. apply N. lra.
    - intros E. injection E as <-. split; [lra|field; lra]. - intros [_ <-]. f_equal. field. exact e. }
  intros v n ddof. split; [apply A|]. intros w N E. apply A in E. destruct E as [_ <-]. field. lra.
Qed.

Example C34_mean_ex : mean_estimator 12 4 1 = Some 4 /\ mean_estimator 12 4 0 = Some 3 /\ mean_estimator 12 1 1 = None.
Proof.
  split; [apply (proj1 (C34_mean _ _ _)); lra|]. split; [apply (proj1 (C34_mean _ _ _)); lra|].
  destruct (mean_estimator 12 1 1) as [w|] eqn:E; [|reflexivity].
  apply (proj1 (C34_mean _ _ _)) in E. destruct E as [N _]. exfalso. apply N. reflexivity.
Qed.

Print Assumptions C192_line.
Print Assumptions C192_plane.
Print Assumptions C192_axes.
Print Assumptions C193_scaled.
Print Assumptions C193_unit_refuted.
Print Assumptions C194_wrong_side.
Print Assumptions C194_confidence.
Print Assumptions C195_known.
Print Assumptions C195_unknown.
Print Assumptions C195_reconstructed.
Print Assumptions C195_level_refuted.
Print Assumptions C34_mean.
