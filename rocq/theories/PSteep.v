(** C234: a regression is never steeper than the fit by principal components. *)
From Coq Require Import Reals Lra Lia List Arith Psatz.
From Verif Require Import RVec Trig SpecPlane LNum SpecConics MConics LConics SpecLinear MAxes MLinear LLinear
  MPca LPca LFit LFit2 LAngles PPca LExamples PLinear PLever.
Import ListNotations.
Notation length := List.length.
Open Scope R_scope.

Lemma sumn_list : forall (F : vec3 -> R) pts, sumn (length pts) (fun i => F (nth i pts vzero)) = sumf F pts.
Proof. intros F. induction pts as [|p t IH]; [reflexivity|]. cbn [length]. rewrite sumn_head. cbn [nth]. rewrite IH. reflexivity. Qed.

Lemma vsse_list : forall pts a b c, vsse (length pts) (array_of pts) a b c =
  sumf (fun p => (vz p - (a * vx p + b * vy p + c)) * (vz p - (a * vx p + b * vy p + c))) pts.
Proof. intros pts a b c. rewrite <- sumn_list. reflexivity. Qed.

Lemma sumf_scale : forall k (F : vec3 -> R) l, sumf (fun p => k * F p) l = k * sumf F l.
Proof. intros k F. induction l as [|p t IH]; simpl; [ring|]. rewrite IH. ring. Qed.

(** distances to the plane and heights above it *)
Lemma graph_dist : forall pts n D, vz n <> 0 ->
  sum_sq_dist n D pts = vz n * vz n * vsse (length pts) (array_of pts) (- vx n / vz n) (- vy n / vz n) (D / vz n).
Proof.
  intros pts n D NZ. rewrite vsse_list. rewrite <- sumf_scale. unfold sum_sq_dist. apply sumf_ext. intros p _. unfold sq_dist, dot. field. auto.
Qed.

(** heights and distances: each fit is best in its own measure *)
Theorem C234_measures : forall inv svd pts f l s d, numpy_inv inv -> lapack svd ->
  PCAOrientation svd pts None None = Ok f -> LinearOrientation inv (length pts) 3 (array_of pts) = Ok l ->
  strike_dip f = Some (s, d) ->
  exists m, rbind (Regression (length pts) 3 (array_of pts)) (coefs inv) = Ok m /\
  let rss := sumn (length pts) (fun i => let e := vz (nth i pts vzero) - fitted (length pts) (array_of pts) m i in e * e) in
  cos (radians d) * cos (radians d) * rss <= vz (p_s f) * vz (p_s f)
    <= cos (radians (snd (l_strike_dip l))) * cos (radians (snd (l_strike_dip l))) * rss.
Proof.
  intros inv svd pts f l s d HI HL HF HR SD.
  destruct (fit_inv svd pts f HL HF) as (R3 & u & mu & SV & MU & _ & _ & PM & _ & _ & DER).
  set (r := length pts) in *. set (A := array_of pts) in *. assert (R0 : (0 < r)%nat) by lia.
  assert (FM : exists m, rbind (Regression r 3 A) (coefs inv) = Ok m).
  { unfold LinearOrientation in HR. rewrite (reg3 r A R0) in *. cbn [rbind] in *. destruct (coefs inv _) as [m| |]; [eauto|discriminate..]. }
  destruct FM as [m F].
  destruct (C79_angles inv r A m HI R0 F) as (l' & EL & ANG). rewrite HR in EL. injection EL as <-.
  destruct (C11_strike_dip_range svd pts ones f HL HF) as (s1 & d1 & ES & Dr & _). rewrite SD in ES. injection ES as <- <-.
  pose proof (C12_strike_dip_plane svd pts ones f HL HF s d SD) as PN.
  destruct (l_strike_dip l) as [s' d'] eqn:LD. cbn [fst snd]. destruct ANG as (_ & Dr' & _ & PN').
  rewrite plane_normal_components in PN, PN'. set (n := p_normal f) in *. set (N := graph_normal (m 0%nat) (m 1%nat)) in *.
  assert (CZ : cos (radians d) = vz n) by (rewrite <- PN; reflexivity). assert (CZ' : cos (radians d') = vz N) by (rewrite <- PN'; reflexivity).
  pose proof (cos_dip_pos d' Dr') as P'. pose proof (cos_dip_nonneg d Dr) as P. rewrite CZ in P. rewrite CZ' in P'.
  destruct (C01_total_least_squares svd pts f HL HF) as (mu' & CE & _ & UN & OPT). unfold center in CE. rewrite PM in CE. injection CE as <-.
  fold n in UN, OPT. pose proof (C02_residual_sum svd pts f HL HF mu PM) as S2. fold n in S2.
  set (D := dot n mu) in *.
  destruct (C78_least_squares inv r A m HI R0 F) as (M2 & LS). cbv zeta in LS.
  set (c0 := col_mean r A 2 - m 0%nat * col_mean r A 0 - m 1%nat * col_mean r A 1) in *.
  set (E := vsse r A (m 0%nat) (m 1%nat) c0) in *.
  assert (GR : - vx N / vz N = m 0%nat /\ - vy N / vz N = m 1%nat).
  { unfold N, graph_normal in *. cbn [vscale vx vy vz] in *. set (h := sqrt _) in *. assert (h <> 0).
    { intros H. rewrite H, Rinv_0 in P'. lra. } split; field; auto. }
  assert (SE : sum_sq_dist n D pts <= vz N * vz N * E).
  { eapply Rle_trans; [apply (OPT N (c0 * vz N)); apply graph_normal_unit|]. rewrite graph_dist by lra. destruct GR as [-> ->].
    replace (c0 * vz N / vz N) with c0 by (field; lra). fold r A E. lra. }
  assert (E0 : 0 <= E) by (apply sumn_nonneg; intros; apply Rle_0_sqr).
  set (S := sum_sq_dist n D pts) in *.
  assert (ES : vz n <> 0 -> vz n * vz n * E <= S).
  { intros NZ. unfold S. rewrite graph_dist by auto. fold r A. apply Rmult_le_compat_l; [apply Rle_0_sqr|]. apply LS. }
  exists m. split; [exact F|]. rewrite CZ, CZ'. cbv zeta.
  assert (RE : sumn r (fun i => (vz (nth i pts vzero) - fitted r A m i) * (vz (nth i pts vzero) - fitted r A m i)) = E).
  { unfold E, vsse. apply sumn_ext. intros i _. unfold fitted, c0, A, array_of. cbv zeta beta iota. ring. }
  rewrite RE, <- S2. split; [|exact SE]. destruct (Req_dec (vz n) 0) as [Z|NZ]; [|auto]. rewrite Z.
  replace (0 * 0 * E) with 0 by ring. apply sumf_nonneg. intros p _. apply Rle_0_sqr.
Qed.

Theorem C234_steeper : forall inv svd pts f l s d, numpy_inv inv -> lapack svd ->
  PCAOrientation svd pts None None = Ok f -> LinearOrientation inv (length pts) 3 (array_of pts) = Ok l ->
  strike_dip f = Some (s, d) ->
  snd (l_strike_dip l) <= d /\
  (0 < vz (p_s f) -> 0 < snd (l_strike_dip l) -> snd (l_strike_dip l) < d).
Proof.
  intros inv svd pts f l s d HI HL HF HR SD.
  destruct (fit_inv svd pts f HL HF) as (R3 & u & mu & SV & MU & _ & _ & PM & _ & _ & DER).
  set (r := length pts) in *. set (A := array_of pts) in *. assert (R0 : (0 < r)%nat) by lia.
  assert (FM : exists m, rbind (Regression r 3 A) (coefs inv) = Ok m).
  { unfold LinearOrientation in HR. rewrite (reg3 r A R0) in *. cbn [rbind] in *. destruct (coefs inv _) as [m| |]; [eauto|discriminate..]. }
  destruct FM as [m F].
  destruct (C79_angles inv r A m HI R0 F) as (l' & EL & ANG). rewrite HR in EL. injection EL as <-.
  destruct (C11_strike_dip_range svd pts ones f HL HF) as (s1 & d1 & ES & Dr & _). rewrite SD in ES. injection ES as <- <-.
  pose proof (C12_strike_dip_plane svd pts ones f HL HF s d SD) as PN.
  destruct (l_strike_dip l) as [s' d'] eqn:LD. cbn [fst snd]. destruct ANG as (_ & Dr' & _ & PN').
  rewrite plane_normal_components in PN, PN'. set (n := p_normal f) in *. set (N := graph_normal (m 0%nat) (m 1%nat)) in *.
  assert (CZ : cos (radians d) = vz n) by (rewrite <- PN; reflexivity). assert (CZ' : cos (radians d') = vz N) by (rewrite <- PN'; reflexivity).
  pose proof (cos_dip_pos d' Dr') as P'. pose proof (cos_dip_nonneg d Dr) as P. rewrite CZ in P. rewrite CZ' in P'.
  destruct (C01_total_least_squares svd pts f HL HF) as (mu' & CE & _ & UN & OPT). unfold center in CE. rewrite PM in CE. injection CE as <-.
  fold n in UN, OPT. pose proof (C02_residual_sum svd pts f HL HF mu PM) as S2. fold n in S2.
  set (D := dot n mu) in *.
  destruct (C78_least_squares inv r A m HI R0 F) as (M2 & LS). cbv zeta in LS.
  set (c0 := col_mean r A 2 - m 0%nat * col_mean r A 0 - m 1%nat * col_mean r A 1) in *.
  set (E := vsse r A (m 0%nat) (m 1%nat) c0) in *.
  assert (GR : - vx N / vz N = m 0%nat /\ - vy N / vz N = m 1%nat).
  { unfold N, graph_normal in *. cbn [vscale vx vy vz] in *. set (h := sqrt _) in *. assert (h <> 0).
    { intros H. rewrite H, Rinv_0 in P'. lra. } split; field; auto. }
  assert (SE : sum_sq_dist n D pts <= vz N * vz N * E).
  { eapply Rle_trans; [apply (OPT N (c0 * vz N)); apply graph_normal_unit|]. rewrite graph_dist by lra. destruct GR as [-> ->].
    replace (c0 * vz N / vz N) with c0 by (field; lra). fold r A E. lra. }
  assert (E0 : 0 <= E) by (apply sumn_nonneg; intros; apply Rle_0_sqr).
  set (S := sum_sq_dist n D pts) in *.
  assert (ES : vz n <> 0 -> vz n * vz n * E <= S).
  { intros NZ. unfold S. rewrite graph_dist by auto. fold r A. apply Rmult_le_compat_l; [apply Rle_0_sqr|]. apply LS. }
  assert (RD : forall x, 0 <= x <= 90 -> 0 <= radians x <= PI) by (intros x X; unfold radians; pose proof PI_RGT_0; split; [apply Rmult_le_pos; [apply Rmult_le_pos|]; lra|nra]).
  destruct (Rle_lt_dec E 0) as [EZ|EP].
  - assert (EE : E = 0) by lra.
    assert (PL : forall p, In p pts -> vz p = m 0%nat * vx p + m 1%nat * vy p + c0).
    { intros p I. destruct (In_nth pts p vzero I) as (i & Li & <-).
      pose proof (sumn_sq_zero r (fun i => A i 2%nat - (m 0%nat * A i 0%nat + m 1%nat * A i 1%nat + c0)) EE i Li) as Z. unfold A, array_of in Z. cbv beta iota zeta in Z. lra. }
    destruct (C79_methods_agree inv svd pts (m 0%nat) (m 1%nat) c0 f HI HL PL) as (l2 & s2 & d2 & EL & ES2 & EQ & _); auto.
    { apply (proj2 (C78_defined inv r A HI R0)). eauto. }
    fold r A in EL. rewrite HR in EL. injection EL as <-. rewrite SD in ES2. injection ES2 as <- <-. rewrite LD in EQ. cbn [snd] in EQ. subst d'.
    split; [lra|]. intros P2. rewrite S2, EE in SE. nra.
  - assert (NN : vz n <= vz N).
    { destruct (Req_dec (vz n) 0) as [Z|NZ]; [lra|]. specialize (ES NZ).
      assert (SQ : vz n * vz n <= vz N * vz N) by (apply Rmult_le_reg_r with E; lra). nra. }
    assert (LE : d' <= d).
    { assert (LR : radians d' <= radians d) by (apply cos_decr_0; try apply RD; lra). unfold radians in LR. pose proof PI_RGT_0. nra. }
    split; [exact LE|]. intros P2 DP. destruct LE as [|EQ]; [assumption|exfalso]. subst d'.
    assert (ZZ : vz n = vz N) by lra. assert (NZ : vz n <> 0) by lra. specialize (ES NZ).
    assert (GD := graph_dist pts n D NZ). fold S r A in GD. set (a' := - vx n / vz n) in *. set (b' := - vy n / vz n) in *.
    destruct (LS a' b' (D / vz n)) as [_ UQ]. destruct UQ as (A' & B' & _).
    { apply Rmult_le_reg_l with (vz n * vz n); [nra|]. rewrite <- GD, ZZ. lra. }
    destruct (fitted_residual inv r A m HI R0 F) as (FS & FX & FY).
    assert (HX : vx n = - m 0%nat * vz n) by (rewrite <- A'; unfold a'; field; auto).
    assert (HY : vy n = - m 1%nat * vz n) by (rewrite <- B'; unfold b'; field; auto).
    set (C := col_mean r A) in *.
    set (e := fun p : vec3 => vz p - (C 2%nat + m 0%nat * (vx p - C 0%nat) + m 1%nat * (vy p - C 1%nat))).
    assert (FS' : sumf e pts = 0) by (rewrite <- sumn_list; exact FS).
    assert (FX' : sumf (fun p => vx p * e p) pts = 0) by (rewrite <- sumn_list; exact FX).
    assert (FY' : sumf (fun p => vy p * e p) pts = 0) by (rewrite <- sumn_list; exact FY).
    assert (K : exists k, forall p, dot (vsub p mu) n = vz n * e p + k).
    { exists (vz n * (C 2%nat - m 0%nat * C 0%nat - m 1%nat * C 1%nat) - dot mu n). intros p. unfold e, dot, vsub. cbn [vx vy vz]. rewrite HX, HY. ring. }
    destruct K as [k K].
    assert (QZ : forall w, vz w = 0 -> Q (centered pts) n w = 0).
    { intros w W. assert (Z : sumf (fun p => dot p w) (centered pts) = 0) by (rewrite dot_vsum, centered_sum; apply dot_zero_l).
      rewrite (centered_mean mu) in Z by auto. unfold Q. rewrite (centered_mean mu) by auto. rewrite sumf_map in *.
      rewrite (sumf_ext _ _ (fun p => (vz n * vx w) * (vx p * e p) + ((vz n * vy w) * (vy p * e p) + (- (vz n * dot mu w) * e p + k * dot (vsub p mu) w)))).
      - rewrite !sumf_plus, !sumf_scale. change (sumf (fun p => e p) pts) with (sumf e pts).
        change (sumf (fun p => dot (vsub p mu) w) pts) with (sumf (fun x => dot (vsub x mu) w) pts).
        rewrite FS', FX', FY', Z. ring.
      - intros p _. rewrite K. unfold dot, vsub. cbn [vx vy vz]. rewrite W. ring. }
    assert (QE : forall w, Q (centered pts) n w = vz (p_s f) * vz (p_s f) * dot n w).
    { intros w. destruct (svd_v _ _ _ _ SV) as (h00 & h11 & h22 & h01 & h02 & h12).
      rewrite (Q_svd _ _ _ _ n w SV). unfold n. destruct (normal_line f DER) as [-> | ->].
      - rewrite h02, h12, h22. ring.
      - assert (V : forall a b, dot a (vneg b) = - dot a b) by (intros; unfold dot, vneg; simpl; ring).
        rewrite !V, h02, h12, h22. unfold dot, vneg. simpl. ring. }
    assert (NX : vx n = 0). { pose proof (QZ (V3 1 0 0) eq_refl) as Z. rewrite QE in Z. unfold dot in Z. cbn [vx vy vz] in Z. apply Rmult_integral in Z. destruct Z as [Z|Z]; [nra|lra]. }
    assert (NY : vy n = 0). { pose proof (QZ (V3 0 1 0) eq_refl) as Z. rewrite QE in Z. unfold dot in Z. cbn [vx vy vz] in Z. apply Rmult_integral in Z. destruct Z as [Z|Z]; [nra|lra]. }
    assert (N1 : vz n = 1). { unfold unit3, nrm2, dot in UN. rewrite NX, NY in UN. nra. }
    assert (d = 0); [|lra]. apply dip_of_cos; try lra. rewrite CZ, N1. unfold radians. replace (0 * PI / 180) with 0 by field. now rewrite cos_0.
Qed.

(** four points that are not in a plane: the regression dips less *)
Example C234_ex : forall inv svd, numpy_inv inv -> lapack svd ->
  let pts := [V3 1 1 1; V3 1 (-1) 1; V3 (-1) 1 (-1); V3 (-1) (-1) 0] in
  exists f l s d, PCAOrientation svd pts None None = Ok f /\ LinearOrientation inv 4 3 (array_of pts) = Ok l /\
  strike_dip f = Some (s, d) /\ 0 < vz (p_s f) /\ 0 < snd (l_strike_dip l) < d.
Proof.
  intros inv svd HI HL pts.
  destruct (fit_exists svd pts HL ltac:(simpl; lia)) as [f HF].
  assert (NC : ~ collinear_xy 4 (array_of pts)).
  { intros (u & v & w & U & H). pose proof (H 0%nat ltac:(lia)) as H0. pose proof (H 1%nat ltac:(lia)) as H1. pose proof (H 2%nat ltac:(lia)) as H2.
    unfold pts, array_of in H0, H1, H2. cbn [nth vx vy vz] in H0, H1, H2. lra. }
  destruct (proj1 (proj2 (C78_defined inv 4 (array_of pts) HI ltac:(lia))) NC) as [m F].
  destruct (C79_angles inv 4 (array_of pts) m HI ltac:(lia) F) as (l & EL & ANG).
  destruct (C11_strike_dip_range svd pts ones f HL HF) as (s & d & SD & _).
  exists f, l, s, d. split; auto. split; auto. split; auto.
  destruct (C234_steeper inv svd pts f l s d HI HL HF EL SD) as [_ ST].
  assert (M : m 0%nat = 3 / 4).
  { destruct (fitted_residual inv 4 (array_of pts) m HI ltac:(lia) F) as (_ & X & _). revert X.
    unfold fitted, col_mean, pts, array_of. cbn [sumn nth vx vy vz]. simpl INR. intros X. lra. }
  assert (P2 : 0 < vz (p_s f)).
  { destruct (fit_inv svd pts f HL HF) as (_ & u & mu & SV & _ & _ & _ & PM & _).
    pose proof (C02_residual_sum svd pts f HL HF mu PM) as S2. destruct (C01_total_least_squares svd pts f HL HF) as (_ & _ & _ & UN & _).
    assert (NN : 0 <= vz (p_s f)) by (destruct SV; tauto || lra).
    destruct NN as [|Z]; [assumption|exfalso]. rewrite <- Z in S2. unfold sum_sq_dist, pts, sq_dist in S2. cbn [sumf] in S2.
    set (n := p_normal f) in *. set (D := dot n mu) in *. unfold dot in S2. cbn [vx vy vz] in S2. unfold unit3, nrm2, dot in UN.
    set (x := vx n) in *. set (y := vy n) in *. set (z := vz n) in *.
    assert (q : forall a, 0 <= a * a) by (intros; apply Rle_0_sqr).
    pose proof (q (x * 1 + y * 1 + z * 1 - D)) as q1. pose proof (q (x * 1 + y * -1 + z * 1 - D)) as q2.
    pose proof (q (x * -1 + y * 1 + z * -1 - D)) as q3. pose proof (q (x * -1 + y * -1 + z * 0 - D)) as q4.
    assert (e1 : x * 1 + y * 1 + z * 1 - D = 0) by (apply Rsqr_0_uniq; unfold Rsqr; lra).
    assert (e2 : x * 1 + y * -1 + z * 1 - D = 0) by (apply Rsqr_0_uniq; unfold Rsqr; lra).
    assert (e3 : x * -1 + y * 1 + z * -1 - D = 0) by (apply Rsqr_0_uniq; unfold Rsqr; lra).
    assert (e4 : x * -1 + y * -1 + z * 0 - D = 0) by (apply Rsqr_0_uniq; unfold Rsqr; lra).
    assert (x = 0) by lra. assert (y = 0) by lra. assert (z = 0) by lra. nra. }
  split; auto. destruct (l_strike_dip l) as [s' d']. cbn [snd] in *. destruct ANG as (_ & Dr & TA & _).
  assert (DP : 0 < d').
  { destruct (proj1 Dr) as [|Z]; [assumption|exfalso]. rewrite <- Z, radians_0, tan_0 in TA.
    assert (0 < sqrt (m 0%nat * m 0%nat + m 1%nat * m 1%nat)) by (apply sqrt_lt_R0; rewrite M; nra). lra. }
  split; auto.
Qed.

Print Assumptions C234_measures.
Print Assumptions C234_steeper.
