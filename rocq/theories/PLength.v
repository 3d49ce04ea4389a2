(** C216: the angular error of a given length. *)
From Coq Require Import Reals Lra Lia List Psatz Arith.
From Verif Require Import RVec Trig SpecPlane SpecRatio MPca MAxes LSvd LPca LFit LFit2 LAxes PAxes PPca PRatio LExamples.
Import ListNotations.
Open Scope R_scope.

Lemma axes_third : forall svd st arr f z, lapack svd -> PCAOrientation svd arr None None = Ok f ->
  let n := INR (length arr) in f_ppf st (95/100) 2 (n - 2) = Some z -> 0 <= z ->
  exists h, hyperbolic_axes st f = Some h /\ 3 <= n /\ (0 <= vx h /\ 0 <= vy h /\ 0 <= vz h) /\
    vz h = (1 + 2 * z / sqrt (n - 2)) * (vz (p_s f) * vz (p_s f)) / (n - 1).
Proof.
  intros svd st arr f z HL HF n HZ Z0. destruct (fit_has_facts _ _ _ HL HF) as (e & FF). pose proof FF as [E S N N3]. fold n in FF, N, N3.
  destruct (eigenvalues_value _ _ _ _ HL HF E) as (_ & _ & E2). fold n in E2.
  exists (axes_value default_kw z e n). split; [exact (stat_axes_value st default_kw f e n z FF HZ Z0)|]. split; [exact N3|].
  split; [destruct (axes_value_nonneg default_kw z e n) as (A & B & C); auto|].
  destruct (axes_noise default_kw z e n eq_refl S N3) as (_ & _ & T). rewrite T.
  assert (SQ : 0 < sqrt (n - 2)) by (apply sqrt_lt_R0; lra). set (k := 2 * z / sqrt (n - 2)).
  assert (TT : noise_t z n (vz e) = k * sqrt (vz e)) by (unfold noise_t, k; rewrite sqrt_div_alt by lra; field; lra).
  rewrite TT. destruct S as (S2 & _). rewrite Rmult_assoc.
  rewrite sqrt_sqrt by auto. change (z_nominal default_kw e n) with (vz e). rewrite E2. clearbody k. unfold Rdiv. ring.
Qed.

(** The tangent for a length is the squared noise, enlarged, over the length. *)
Theorem C216_value : forall svd st arr f z L, lapack svd -> PCAOrientation svd arr None None = Ok f ->
  let n := INR (length arr) in f_ppf st (95/100) 2 (n - 2) = Some z -> 0 <= z -> 0 < L ->
  exists a, angular_error st f L = Some a /\ 0 <= a < PI / 2 /\
    tan a = (1 + 2 * z / sqrt (n - 2)) * (vz (p_s f) * vz (p_s f)) / (n - 1) / L.
Proof.
  intros svd st arr f z L HL HF n HZ Z0 LP. destruct (axes_third svd st arr f z HL HF HZ Z0) as (h & H & _ & (_ & _ & N) & V). fold n in V.
  unfold angular_error, axis_angular_error. rewrite H. cbn [obind]. rewrite atan2_pos by auto. eexists. split; [reflexivity|].
  rewrite tan_atan, V. split; [|reflexivity]. rewrite <- V. destruct (atan_bound (vz h / L)) as (_ & B). split; [|exact B].
  rewrite <- atan_0. assert (P : 0 <= vz h / L) by (apply Rmult_le_pos; [exact N|left; apply Rinv_0_lt_compat; auto]).
  destruct P as [P|P]; [left; apply atan_increasing; exact P|]. rewrite <- P. lra.
Qed.

(** It is not a ratio of lengths: data and length in other units give another angle, while
    the angular errors of the fit stay the same. *)
Theorem C216_units : forall svd1 svd2 st arr f g z c L, lapack svd1 -> lapack svd2 -> 0 < c -> c <> 1 -> 0 < L ->
  PCAOrientation svd1 arr None None = Ok f -> PCAOrientation svd2 (map (vscale c) arr) None None = Ok g ->
  f_ppf st (95/100) 2 (INR (length arr) - 2) = Some z -> 0 <= z -> 0 < vz (p_s f) ->
  fit_angular_errors st g = fit_angular_errors st f /\
  exists a b, angular_error st f L = Some a /\ angular_error st g (c * L) = Some b /\ tan b = c * tan a /\ a <> b.
Proof.
  intros svd1 svd2 st arr f g z c L L1 L2 C C1 LP F G HZ Z0 P.
  destruct (scale_fits _ _ _ _ _ _ L1 L2 C F G) as (S & _). assert (LE : length arr = length (map (vscale c) arr)) by now rewrite map_length.
  split; [exact (C204_scale svd1 svd2 st arr _ f g z c L1 L2 F G LE HZ Z0 C S)|].
  destruct (C216_value svd1 st arr f z L L1 F HZ Z0 LP) as (a & A & RA & TA). pose proof HZ as HZ'. rewrite LE in HZ'.
  destruct (C216_value svd2 st _ g z (c * L) L2 G HZ' Z0 ltac:(apply Rmult_lt_0_compat; auto)) as (b & B & RB & TB).
  rewrite <- LE in TB. exists a, b. split; [exact A|]. split; [exact B|].
  destruct (axes_third svd1 st arr f z L1 F HZ Z0) as (_ & _ & N3 & _).
  assert (SQ : 0 < sqrt (INR (length arr) - 2)) by (apply sqrt_lt_R0; lra).
  assert (E : tan b = c * tan a).
  { rewrite TA, TB, S. unfold vscale. cbn [vz]. field. repeat split; lra. }
  split; [exact E|]. intros X. subst b.
  assert (TP : 0 < tan a).
  { rewrite TA. apply Rdiv_lt_0_compat; auto. apply Rdiv_lt_0_compat; [|lra]. apply Rmult_lt_0_compat; [|apply Rmult_lt_0_compat; auto].
    pose proof (k_nonneg z _ Z0 N3). lra. }
  apply C1. apply (Rmult_eq_reg_r (tan a)); lra.
Qed.

(** For the length of an axis it is the angular error of the fit only if the third
    hyperbolic axis is 0 or 1. *)
Theorem C216_agrees : forall svd st arr f z, lapack svd -> PCAOrientation svd arr None None = Ok f ->
  f_ppf st (95/100) 2 (INR (length arr) - 2) = Some z -> 0 <= z ->
  exists h e0 e1, hyperbolic_axes st f = Some h /\ fit_angular_errors st f = Some (e0, e1) /\
    (0 < vx h -> exists a, angular_error st f (sqrt (vx h)) = Some a /\ (degrees a = e0 <-> vz h = 0 \/ vz h = 1)) /\
    (0 < vy h -> exists a, angular_error st f (sqrt (vy h)) = Some a /\ (degrees a = e1 <-> vz h = 0 \/ vz h = 1)).
Proof.
  intros svd st arr f z HL HF HZ Z0. destruct (axes_third svd st arr f z HL HF HZ Z0) as (h & H & _ & (NX & NY & NZ) & _).
  exists h, (degrees (atan2 (sqrt (vz h)) (sqrt (vx h)))), (degrees (atan2 (sqrt (vz h)) (sqrt (vy h)))).
  split; [exact H|]. split.
  - unfold fit_angular_errors. rewrite H. cbn [obind]. rewrite angular_errors_value by (repeat split; auto). reflexivity.
  - assert (G : forall x, 0 < x -> exists a, angular_error st f (sqrt x) = Some a /\ (degrees a = degrees (atan2 (sqrt (vz h)) (sqrt x)) <-> vz h = 0 \/ vz h = 1)).
    { intros x X. pose proof (sqrt_lt_R0 x X) as SX. unfold angular_error, axis_angular_error. rewrite H. cbn [obind]. eexists. split; [reflexivity|].
      rewrite !atan2_pos by auto. split.
      - intros E. assert (E' : atan (vz h / sqrt x) = atan (sqrt (vz h) / sqrt x)).
        { unfold degrees in E. pose proof PI_RGT_0. apply (Rmult_eq_reg_r (180 / PI)); [|apply Rgt_not_eq; apply Rdiv_lt_0_compat; lra]. 
          replace (atan (vz h / sqrt x) * (180 / PI)) with (atan (vz h / sqrt x) * 180 / PI) by (field; lra).
          replace (atan (sqrt (vz h) / sqrt x) * (180 / PI)) with (atan (sqrt (vz h) / sqrt x) * 180 / PI) by (field; lra). exact E. }
        apply (f_equal tan) in E'. rewrite !tan_atan in E'.
        assert (E2 : vz h = sqrt (vz h)) by (apply (Rmult_eq_reg_r (/ sqrt x)); [exact E'|apply Rinv_neq_0_compat; lra]).
        pose proof (sqrt_sqrt (vz h) NZ) as S. rewrite <- E2 in S.
        assert (K : vz h * (vz h - 1) = 0) by lra. apply Rmult_integral in K. destruct K; [left|right]; lra.
      - intros [E|E]; rewrite E; [rewrite sqrt_0|rewrite sqrt_1]; reflexivity. }
    split; intros X; apply G; exact X.
Qed.
Example C216_ex : exists f, PCAOrientation svd_ref tilted_data None None = Ok f /\ 0 < vz (p_s f) /\
  f_ppf (const_stats 2) (95/100) 2 (INR (length tilted_data) - 2) = Some 2.
Proof. destruct tilted_fit as (f & H & _ & _ & P). exists f. auto. Qed.

Print Assumptions C216_value.
Print Assumptions C216_units.
Print Assumptions C216_agrees.
