(** Properties C38-C42 and C92: planes reconstructed from angles. *)
From Coq Require Import Reals Lra Lia List Psatz.
From Verif Require Import RVec Trig SpecPlane MPca LSvd LPca LFit LAngles LFit2 LExamples MAxes LAxes MSphere MRecon LRecon PPca.
Import ListNotations.
Open Scope R_scope.

Lemma recon_value : forall s d r errs ne, exists p, ReconstructedPlane s d r errs ne = Some p /\
  rp_strike p = s /\ rp_dip p = d /\ rp_rake p = r /\ rp_errors p = errs /\
  rp_normal p = (if Rlt_dec 90 d then vneg (plane_normal s d) else plane_normal s d) /\
  (let m := if Rlt_dec r 0 then vneg (rake_dir s d r) else rake_dir s d r in
   let ax := M3 (cross (rp_normal p) m) m (rp_normal p) in
   rp_axes p = if Rlt_dec (vz (rp_normal p)) 0 then mneg ax else ax) /\
  rp_hyperbolic p = option_map (fun l => l ++ [ne])
    (sequence (map (over_tan ne) (rev (map (fun a => radians a / 2) errs)))).
Proof.
  intros s d r errs ne. unfold ReconstructedPlane.
  destruct (pole_spec s d) as (q & E & H). rewrite E. cbn [obind].
  destruct (rake_spec s d r) as (q' & E' & H'). rewrite E'. cbn [obind].
  eexists. split; [reflexivity|]. simpl. rewrite H, H'. repeat split.
Qed.

(** ** C38 *)
Lemma unit_neg : forall v, unit3 v -> unit3 (vneg v).
Proof. intros v H. unfold unit3. now rewrite nrm2_neg. Qed.
Lemma frame_of_two : forall n m, unit3 n -> unit3 m -> dot m n = 0 -> orthonormal (M3 (cross n m) m n).
Proof.
  intros n m Hn Hm H. unfold unit3 in *.
  assert (C : nrm2 (cross n m) = 1) by (rewrite nrm2_cross, Hn, Hm, dot_comm, H; ring).
  unfold orthonormal; simpl. unfold nrm2 in *. repeat split; auto; try apply dot_cross_l; apply dot_cross_r.
Qed.
Theorem C38_reconstructed_axes : forall s d r errs ne, exists p,
  ReconstructedPlane s d r errs ne = Some p /\ unit3 (rp_normal p) /\ orthonormal (rp_axes p) /\
  same_line (r2 (rp_axes p)) (rp_normal p) /\ 0 <= vz (r2 (rp_axes p)) /\
  same_line (rp_normal p) (plane_normal s d) /\
  (0 <= d <= 90 -> rp_normal p = plane_normal s d /\ r2 (rp_axes p) = plane_normal s d).
Proof.
  intros s d r errs ne. destruct (recon_value s d r errs ne) as (p & E & _ & _ & _ & _ & N & A & _).
  exists p. split; auto. pose proof (plane_normal_unit s d) as U.
  destruct (rake_dir_frame s d r) as (UR & DR & _).
  assert (UN : unit3 (rp_normal p)) by (rewrite N; destruct (Rlt_dec 90 d); [now apply unit_neg | auto]).
  assert (SL : same_line (rp_normal p) (plane_normal s d)).
  { rewrite N. destruct (Rlt_dec 90 d); [right | left]; auto. }
  cbv zeta in A. set (m := if Rlt_dec r 0 then _ else _) in A.
  assert (UM : unit3 m) by (unfold m; destruct (Rlt_dec r 0); [now apply unit_neg | auto]).
  assert (DM : dot m (rp_normal p) = 0).
  { rewrite N. unfold m. destruct (Rlt_dec r 0), (Rlt_dec 90 d); rewrite ?dot_neg_l, ?dot_neg_r, DR; ring. }
  pose proof (frame_of_two _ _ UN UM DM) as O.
  split; auto. rewrite A. destruct (Rlt_dec (vz (rp_normal p)) 0) as [h|h].
  - split; [now apply orthonormal_neg|]. simpl. split; [now right|]. split; [lra|]. split; auto.
    intros Hd. rewrite N in *. destruct (Rlt_dec 90 d); [lra|].
    pose proof (cos_dip_nonneg d Hd). rewrite plane_normal_components in h. simpl in h. lra.
  - split; auto. simpl. split; [now left|]. split; [lra|]. split; auto.
    intros Hd. rewrite N. destruct (Rlt_dec 90 d); [lra | auto].
Qed.
(** reading strike and dip off the reconstructed axes gives the arguments back *)
Theorem C38_round_trip : forall s d r errs ne, 0 <= s < 360 -> 0 < d <= 90 -> exists p,
  ReconstructedPlane s d r errs ne = Some p /\ strike_dip_of (r2 (rp_axes p)) = Some (s, d) /\
  strike_dip_of (rp_normal p) = Some (s, d).
Proof.
  intros s d r errs ne Hs Hd.
  destruct (C38_reconstructed_axes s d r errs ne) as (p & E & UN & _ & _ & Z & _ & R).
  exists p. split; auto. destruct R as [R1 R2]; [lra|]. rewrite R1, R2.
  destruct (strike_dip_of_spec _ (plane_normal_unit s d)) as (s' & d' & E' & Hd' & Hs' & P).
  rewrite R2 in Z. destruct (Rlt_dec (vz (plane_normal s d)) 0); [lra|].
  destruct (plane_normal_inj s' d' s d) as [-> S]; auto; try lra.
  rewrite S in E' by lra. auto.
Qed.
Example C38_ex : exists p, ReconstructedPlane 45 30 120 [4; 9] 1 = Some p /\
  strike_dip_of (r2 (rp_axes p)) = Some (45, 30).
Proof. destruct (C38_round_trip 45 30 120 [4; 9] 1) as (p & E & H & _); try lra. exists p; auto. Qed.

(** ** C92 *)
Theorem C92_left_handed : forall s d r errs ne, -90 <= d <= 90 -> exists p,
  ReconstructedPlane s d r errs ne = Some p /\ mdet (rp_axes p) = -1 /\
  cross (r0 (rp_axes p)) (r1 (rp_axes p)) = vneg (r2 (rp_axes p)).
Proof.
  intros s d r errs ne Hd. destruct (recon_value s d r errs ne) as (p & E & _ & _ & _ & _ & N & A & _).
  exists p. split; auto. destruct (rake_dir_frame s d r) as (UR & DR & _).
  pose proof (plane_normal_unit s d) as U.
  destruct (Rlt_dec 90 d) as [h|h] in N; [lra|]. rewrite N in A.
  assert (Z : 0 <= vz (plane_normal s d)).
  { rewrite plane_normal_components. simpl. pose proof PI_pos. apply cos_ge_0.
    - assert (radians (-90) <= radians d) by (apply radians_le; lra). replace (-90) with (- (90)) in H0 by lra.
      rewrite radians_opp, radians_90 in H0. lra.
    - rewrite <- radians_90. apply radians_le; lra. }
  cbv zeta in A. destruct (Rlt_dec (vz _) 0); [lra|]. rewrite A.
  set (m := if Rlt_dec r 0 then _ else _).
  assert (UM : unit3 m) by (unfold m; destruct (Rlt_dec r 0); [now apply unit_neg | auto]).
  assert (DM : dot m (plane_normal s d) = 0).
  { unfold m. destruct (Rlt_dec r 0); rewrite ?dot_neg_l, DR; ring. }
  set (nn := plane_normal s d) in *. clearbody nn m. unfold unit3 in *. simpl.
  assert (X : cross (cross nn m) m = vsub (vscale (dot m nn) m) (vscale (nrm2 m) nn)) by vring.
  split; [|rewrite X, DM, UM; vring].
  unfold mdet; simpl. transitivity (dot nn m * dot nn m - nrm2 m * nrm2 nn); [vring|].
  rewrite dot_comm, DM, UM, U. ring.
Qed.

(** ** C39 *)
Theorem C39_plane_recovered : forall svd arr w f s d r errs ne, lapack svd ->
  PCAOrientation svd arr (Some w) None = Ok f -> strike_dip_rake f = Some (s, d, r) ->
  exists p, ReconstructedPlane s d r errs ne = Some p /\
    rp_normal p = p_normal f /\ r2 (rp_axes p) = p_normal f.
Proof.
  intros svd arr w f s d r errs ne HL HF E.
  destruct (C11_strike_dip_range _ _ _ _ HL HF) as (s' & d' & E' & Hd & Hs).
  assert (SD : strike_dip f = Some (s, d)).
  { unfold strike_dip_rake in E. rewrite E' in *. destruct (rake f); [|discriminate]. congruence. }
  rewrite SD in E'. injection E' as <- <-.
  destruct (C38_reconstructed_axes s d r errs ne) as (p & EP & _ & _ & _ & _ & _ & R).
  exists p. split; auto. rewrite <- (C12_strike_dip_plane _ _ _ _ HL HF s d SD). now apply R.
Qed.
Example C39_ex : exists f s d r, PCAOrientation svd_ref tilted_data (Some ones) None = Ok f /\
  strike_dip_rake f = Some (s, d, r).
Proof.
  destruct tilted_fit as (f & F & N & _).
  assert (F' : PCAOrientation svd_ref tilted_data (Some ones) None = Ok f) by exact F.
  destruct (C11_strike_dip_range _ _ _ _ lapack_ref F') as (s & d & E & _).
  destruct (C10_dip_dr _ _ _ _ lapack_ref F') as [_ B]. rewrite N in B.
  destruct B as (dd & Ed & _). { simpl. lra. }
  destruct (C16_rake _ _ _ _ _ lapack_ref F' Ed) as (r & Er & _).
  exists f, s, d, r. split; auto. unfold strike_dip_rake. now rewrite E, Er.
Qed.

(** ** C40 *)
Lemma fit_axes_in_frame : forall svd arr w f s d r, lapack svd ->
  PCAOrientation svd arr (Some w) None = Ok f -> strike_dip_rake f = Some (s, d, r) ->
  0 <= r <= 180 /\
  exists x, x = dot (r0 (p_axes f)) (azimuth_vec s) /\
    x * x + cos (radians r) * cos (radians r) = 1 /\
    r0 (p_axes f) = vadd (vscale x (azimuth_vec s)) (vscale (cos (radians r)) (up_dip s d)) /\
    same_line (r1 (p_axes f)) (vadd (vscale (- cos (radians r)) (azimuth_vec s)) (vscale x (up_dip s d))).
Proof.
  intros svd arr w f s d r HL HF E.
  destruct (C11_strike_dip_range _ _ _ _ HL HF) as (s' & d' & E' & Hd & Hs).
  unfold strike_dip_rake in E. rewrite E' in E. destruct (rake f) as [r'|] eqn:ER; [|discriminate].
  injection E as -> -> ->.
  pose proof (C12_strike_dip_plane _ _ _ _ HL HF s d E') as PN.
  destruct (weighted_inv _ _ _ _ HL HF) as (_ & _ & u & t & Hs' & _ & _ & _ & _ & _ & _ & _ & D).
  pose proof (svd_v _ _ _ _ Hs') as (U0 & U1 & U2 & H01 & H02 & H12).
  pose proof (normal_line f D) as NL. destruct D as (_ & D1 & D2).
  assert (SP : 0 < sin (radians d)).
  { destruct (Req_EM_T d 0) as [h|h]; [|apply sin_dip_pos; lra]. exfalso. subst d.
    unfold rake in ER. rewrite D2, D1, <- PN in ER. rewrite cross_strike in ER by apply plane_normal_unit.
    rewrite plane_normal_components, radians_0, cos_0, sin_0 in ER.
    replace (vsub ez _) with vzero in ER by (apply vec3_eq; vunf; ring).
    unfold normalize in ER. replace (norm vzero) with 0 in ER.
    - destruct (Req_EM_T 0 0); [discriminate | lra].
    - symmetry. now apply norm_zero_iff. }
  assert (DD : p_dip_dr f = Some (up_dip s d)).
  { rewrite D2, D1, <- PN. now apply dip_dr_up_dip. }
  destruct (C16_rake _ _ _ _ _ HL HF DD) as (r' & ER' & RR & RC). rewrite ER in ER'. injection ER' as <-.
  split; auto. exists (dot (r0 (p_axes f)) (azimuth_vec s)). split; auto.
  assert (P0 : dot (r0 (p_axes f)) (plane_normal s d) = 0).
  { rewrite PN. destruct NL as [-> | ->]; rewrite ?dot_neg_r, H02; ring. }
  assert (P1 : dot (r1 (p_axes f)) (plane_normal s d) = 0).
  { rewrite PN. destruct NL as [-> | ->]; rewrite ?dot_neg_r, H12; ring. }
  pose proof (frame_coords s d _ P0) as E0. pose proof (frame_coords s d _ P1) as E1.
  rewrite (dot_comm _ (up_dip s d)), <- RC in E0. rewrite (dot_comm _ (up_dip s d)) in E1.
  set (a0 := r0 (p_axes f)) in *. set (a1 := r1 (p_axes f)) in *.
  set (x := dot a0 (azimuth_vec s)) in *. set (c := cos (radians r)) in *.
  set (y := dot a1 (azimuth_vec s)) in *. set (z := dot (up_dip s d) a1) in *.
  destruct (frame s d) as ((A & B & _ & AB & _ & _) & _). simpl in A, B, AB.
  assert (AB' : dot (up_dip s d) (azimuth_vec s) = 0) by (rewrite dot_comm; auto).
  assert (X1 : x * x + c * c = 1).
  { rewrite E0 in U0. rewrite !dot_add_l, !dot_add_r, !dot_scale_l, !dot_scale_r, A, B, AB, AB' in U0. lra. }
  assert (Y1 : y * y + z * z = 1).
  { rewrite E1 in U1. rewrite !dot_add_l, !dot_add_r, !dot_scale_l, !dot_scale_r, A, B, AB, AB' in U1. lra. }
  assert (XY : x * y + c * z = 0).
  { rewrite E1, E0 in H01. rewrite !dot_add_l, !dot_add_r, !dot_scale_l, !dot_scale_r, A, B, AB, AB' in H01. lra. }
  split; auto. split; auto. rewrite E1. apply plane_same_line.
  assert (K : (y = - c /\ z = x) \/ (y = - - c /\ z = - x)).
  { assert (Q : (x * z - c * y) * (x * z - c * y) = 1).
    { transitivity ((x * x + c * c) * (y * y + z * z) - (x * y + c * z) * (x * y + c * z)); [ring|].
      rewrite X1, Y1, XY. ring. }
    assert (Y : y = - c * (x * z - c * y)).
    { transitivity ((x * x + c * c) * y - x * (x * y + c * z)); [rewrite X1, XY; ring | ring]. }
    assert (Z : z = x * (x * z - c * y)).
    { transitivity ((x * x + c * c) * z - c * (x * y + c * z)); [rewrite X1, XY; ring | ring]. }
    assert (W : x * z - c * y = 1 \/ x * z - c * y = -1).
    { assert (F : (x * z - c * y - 1) * (x * z - c * y + 1) = 0) by lra.
      apply Rmult_integral in F. destruct F; [left | right]; lra. }
    destruct W as [W|W]; rewrite W in Y, Z; [left | right]; lra. }
  destruct K as [[-> ->]|[-> ->]]; [left | right]; split; ring.
Qed.

Theorem C40_axes_recovered_iff : forall svd arr w f s d r errs ne p, lapack svd ->
  PCAOrientation svd arr (Some w) None = Ok f -> strike_dip_rake f = Some (s, d, r) ->
  ReconstructedPlane s d r errs ne = Some p ->
  (same_line (r0 (rp_axes p)) (r0 (p_axes f)) <->
     0 <= dot (r0 (p_axes f)) (azimuth_vec s) \/ r = 90) /\
  (same_line (r1 (rp_axes p)) (r1 (p_axes f)) <->
     0 <= dot (r0 (p_axes f)) (azimuth_vec s) \/ r = 90).
Proof.
  intros svd arr w f s d r errs ne p HL HF E EP.
  destruct (fit_axes_in_frame _ _ _ _ _ _ _ HL HF E) as (RR & x & X & XX & E0 & E1).
  rewrite <- X.
  destruct (C11_strike_dip_range _ _ _ _ HL HF) as (s' & d' & E' & Hd & Hs).
  assert (SD : s' = s /\ d' = d).
  { unfold strike_dip_rake in E. rewrite E' in E. destruct (rake f); [|discriminate]. split; congruence. }
  destruct SD as [-> ->]. clear E'.
  destruct (recon_value s d r errs ne) as (p' & EP' & _ & _ & _ & _ & N & A & _).
  rewrite EP in EP'. injection EP' as <-.
  destruct (Rlt_dec 90 d); [lra|]. destruct (Rlt_dec r 0); [lra|]. rewrite N in A. cbv zeta in A.
  assert (Z : 0 <= vz (plane_normal s d)).
  { rewrite plane_normal_components. simpl. now apply cos_dip_nonneg. }
  destruct (Rlt_dec (vz (plane_normal s d)) 0); [lra|]. rewrite A. simpl.
  destruct (rake_dir_frame s d r) as (_ & _ & C). rewrite C.
  assert (SR : 0 <= sin (radians r)).
  { apply sin_ge_0; [rewrite <- radians_0 | rewrite <- radians_180]; apply radians_le; lra. }
  pose proof (sincos1 (radians r)) as SC.
  assert (R90 : cos (radians r) = 0 <-> r = 90).
  { split; intros H.
    - apply dip_of_cos; try lra. rewrite H, radians_90, cos_PI2. auto.
    - subst. rewrite radians_90. apply cos_PI2. }
  rewrite <- R90. set (c := cos (radians r)) in *. set (sn := sin (radians r)) in *.
  assert (CASE : x = sn \/ x = - sn).
  { assert (F : (x - sn) * (x + sn) = 0) by lra. apply Rmult_integral in F. destruct F; [left | right]; lra. }
  split.
  - rewrite E0.
    replace (vneg (vadd (vscale sn (azimuth_vec s)) (vscale c (up_dip s d))))
      with (vadd (vscale (- sn) (azimuth_vec s)) (vscale (- c) (up_dip s d))) by vring.
    rewrite plane_same_line. split.
    + intros [[H1 H2]|[H1 H2]]; [right; lra | left; lra].
    + intros [H|H].
      * right. destruct CASE; split; lra.
      * destruct CASE; [right | left]; split; lra.
  - assert (T : same_line (rake_dir s d r) (r1 (p_axes f)) <->
       same_line (vadd (vscale (- c) (azimuth_vec s)) (vscale sn (up_dip s d)))
                 (vadd (vscale (- c) (azimuth_vec s)) (vscale x (up_dip s d)))).
    { unfold rake_dir. fold c sn. split; intros H.
      - eapply same_line_trans; eauto.
      - eapply same_line_trans; [exact H|]. now apply same_line_sym. }
    rewrite T, plane_same_line. split.
    + intros [[H1 H2]|[H1 H2]]; [left; lra | right; lra].
    + intros [H|H].
      * left. destruct CASE; split; lra.
      * destruct CASE; [left | right]; split; lra.
Qed.

(** two decompositions that differ in the sign of the first axis: exactly one
    of them is reconstructed, unless the axis is along strike or dip *)
Theorem C40_one_sign_only : forall svd1 svd2 arr w f1 f2 s d r1 r2' errs ne p1 p2,
  lapack svd1 -> lapack svd2 ->
  PCAOrientation svd1 arr (Some w) None = Ok f1 -> PCAOrientation svd2 arr (Some w) None = Ok f2 ->
  r0 (p_axes f2) = vneg (r0 (p_axes f1)) ->
  strike_dip_rake f1 = Some (s, d, r1) -> strike_dip_rake f2 = Some (s, d, r2') ->
  r1 <> 0 -> r1 <> 90 -> r1 <> 180 ->
  ReconstructedPlane s d r1 errs ne = Some p1 -> ReconstructedPlane s d r2' errs ne = Some p2 ->
  (same_line (r0 (rp_axes p1)) (r0 (p_axes f1)) <-> ~ same_line (r0 (rp_axes p2)) (r0 (p_axes f2))).
Proof.
  intros svd1 svd2 arr w f1 f2 s d q1 q2 errs ne p1 p2 L1 L2 F1 F2 EN E1 E2 N0 N90 N180 P1 P2.
  destruct (C40_axes_recovered_iff _ _ _ _ _ _ _ _ _ _ L1 F1 E1 P1) as [A1 _].
  destruct (C40_axes_recovered_iff _ _ _ _ _ _ _ _ _ _ L2 F2 E2 P2) as [A2 _].
  destruct (fit_axes_in_frame _ _ _ _ _ _ _ L1 F1 E1) as (R1 & x1 & X1 & XX1 & Y1 & _).
  destruct (fit_axes_in_frame _ _ _ _ _ _ _ L2 F2 E2) as (R2 & x2 & X2 & XX2 & Y2 & _).
  rewrite A1, A2, <- X1, <- X2.
  assert (XN : x2 = - x1) by (rewrite X1, X2, EN; apply dot_neg_l).
  assert (CN : cos (radians q2) = - cos (radians q1)).
  { rewrite EN, Y1 in Y2.
    destruct (plane_vec_eq s d (- x1) (- cos (radians q1)) x2 (cos (radians q2))); [|lra].
    rewrite <- Y2. vring. }
  assert (C90 : forall q, 0 <= q <= 180 -> cos (radians q) = 0 -> q = 90).
  { intros q Hq H. apply dip_of_cos; try lra. rewrite H, radians_90, cos_PI2. auto. }
  assert (N90' : q2 <> 90).
  { intros ->. rewrite radians_90, cos_PI2 in CN. apply N90, C90; auto. lra. }
  assert (NX : x1 <> 0).
  { intros H. rewrite H in XX1.
    assert (F : (cos (radians q1) - 1) * (cos (radians q1) + 1) = 0) by lra.
    apply Rmult_integral in F. destruct F as [F|F].
    - apply N0, dip_of_cos; try lra. rewrite radians_0, cos_0. lra.
    - apply N180, dip_of_cos; try lra. rewrite radians_180, cos_PI. lra. }
  split.
  - intros [H|H] [H'|H']; try contradiction. lra.
  - intros H. left. destruct (Rle_dec 0 x1) as [h|h]; auto. exfalso. apply H. left. lra.
Qed.

(** a fit whose reconstruction has mirrored in-plane axes *)
Theorem C40_mirrored_refuted : exists svd arr f s d r,
  lapack svd /\ PCAOrientation svd arr None None = Ok f /\ strike_dip_rake f = Some (s, d, r) /\
  forall errs ne, exists p, ReconstructedPlane s d r errs ne = Some p /\
    ~ same_line (r0 (rp_axes p)) (r0 (p_axes f)) /\ ~ same_line (r1 (rp_axes p)) (r1 (p_axes f)).
Proof.
  destruct obl_fit as (f & F & AX).
  assert (F' : PCAOrientation obl_routine obl_data (Some ones) None = Ok f) by exact F.
  pose proof obl_lapack as HL.
  destruct (C11_strike_dip_range _ _ _ _ HL F') as (s & d & E & Hd & Hs).
  pose proof (C12_strike_dip_plane _ _ _ _ HL F' s d E) as PN.
  destruct (weighted_inv _ _ _ _ HL F') as (_ & _ & u & t & Hs' & _ & _ & _ & _ & _ & _ & _ & D).
  assert (NN : p_normal f = V3 (2/3) (-2/3) (1/3)).
  { destruct D as (X & _). unfold p_normal. rewrite X, AX. unfold derived_normal; simpl.
    destruct (Rlt_dec (1/3) 0); [lra | reflexivity]. }
  destruct (C10_dip_dr _ _ _ _ HL F') as [_ B]. rewrite NN in B.
  destruct B as (dd & Ed & _). { simpl. lra. }
  destruct (C16_rake _ _ _ _ _ HL F' Ed) as (r & Er & _).
  assert (SDR : strike_dip_rake f = Some (s, d, r)) by (unfold strike_dip_rake; now rewrite E, Er).
  exists obl_routine, obl_data, f, s, d, r. split; auto. split; auto. split; auto.
  intros errs ne. destruct (recon_value s d r errs ne) as (p & EP & _). exists p. split; auto.
  destruct (C40_axes_recovered_iff _ _ _ _ _ _ _ _ _ _ HL F' SDR EP) as [-> ->].
  destruct (fit_axes_in_frame _ _ _ _ _ _ _ HL F' SDR) as (_ & x & X & _ & Y & _).
  rewrite NN, plane_normal_components in PN. injection PN as P1 P2 P3.
  assert (S0 : 0 <= sin (radians d)).
  { apply sin_ge_0; [rewrite <- radians_0 | rewrite <- radians_180]; apply radians_le; lra. }
  assert (CS : 0 < cos (radians s)) by nra. assert (SS : 0 < sin (radians s)) by nra.
  assert (SD : 0 < sin (radians d)) by nra.
  assert (NX : ~ (0 <= dot (r0 (p_axes f)) (azimuth_vec s) \/ r = 90)).
  { intros [H|H].
    - rewrite AX in H. unfold obl_axes, azimuth_vec in H. vunf. nra.
    - assert (C : dot (r0 (p_axes f)) (up_dip s d) = 0).
      { subst r. rewrite Y, radians_90, cos_PI2. destruct (frame s d) as ((_ & _ & _ & AB & _) & _). simpl in AB.
        rewrite dot_add_l, !dot_scale_l, AB. ring. }
      rewrite AX, up_dip_components in C. unfold obl_axes in C. vunf. rewrite P3 in C.
      assert (cos (radians s) = sin (radians s)) by nra. nra. }
  split; exact NX.
Qed.

(** ** C42 *)
Lemma sqrt_cot : forall ne e, 0 < ne -> 0 < e < PI / 2 ->
  atan2 (sqrt ne) (sqrt (ne * cos e / sin e)) = atan (sqrt (tan e)).
Proof.
  intros ne e Hn He. assert (C : 0 < cos e) by (apply cos_gt_0; lra).
  assert (S : 0 < sin e) by (apply sin_gt_0; lra).
  assert (Pn : 0 < sqrt ne) by (now apply sqrt_lt_R0).
  replace (ne * cos e / sin e) with (ne * (cos e / sin e)) by (field; lra).
  assert (CS : 0 < cos e / sin e) by (apply Rdiv_lt_0_compat; auto).
  rewrite sqrt_mult by lra.
  assert (Pc : 0 < sqrt (cos e / sin e)) by (now apply sqrt_lt_R0).
  rewrite atan2_pos by nra. f_equal.
  replace (sqrt ne / (sqrt ne * sqrt (cos e / sin e))) with (/ sqrt (cos e / sin e)) by (field; lra).
  rewrite <- sqrt_inv. f_equal. unfold tan. field. lra.
Qed.
Theorem C42_errors_swapped : forall s d r a b ne p,
  0 < a < 180 -> 0 < b < 180 -> 0 < ne ->
  ReconstructedPlane s d r [a; b] ne = Some p ->
  exists h0 h1, rp_hyperbolic p = Some [h0; h1; ne] /\
    angular_errors (V3 h0 h1 ne) =
      Some (atan (sqrt (tan (radians b / 2))), atan (sqrt (tan (radians a / 2)))).
Proof.
  intros s d r a b ne p Ha Hb Hn E.
  destruct (recon_value s d r [a; b] ne) as (p' & E' & _ & _ & _ & _ & _ & _ & H).
  rewrite E in E'. injection E' as <-.
  assert (R : forall x, 0 < x < 180 -> 0 < radians x / 2 < PI / 2).
  { intros x Hx. assert (radians 0 < radians x < radians 180) by (split; apply radians_lt; lra).
    rewrite radians_0, radians_180 in H0. lra. }
  pose proof (R a Ha) as Ra. pose proof (R b Hb) as Rb.
  assert (Sa : 0 < sin (radians a / 2)) by (apply sin_gt_0; lra).
  assert (Sb : 0 < sin (radians b / 2)) by (apply sin_gt_0; lra).
  assert (Ca : 0 < cos (radians a / 2)) by (apply cos_gt_0; lra).
  assert (Cb : 0 < cos (radians b / 2)) by (apply cos_gt_0; lra).
  simpl in H. unfold over_tan, fdiv in H.
  destruct (Req_EM_T (sin (radians b / 2)) 0); [lra|]. destruct (Req_EM_T (sin (radians a / 2)) 0); [lra|].
  simpl in H. do 2 eexists. split; [exact H|].
  assert (P : forall c s, 0 < c -> 0 < s -> 0 <= ne * c / s).
  { intros c t Hc Ht. apply div_nonneg; auto. nra. }
  rewrite angular_errors_value by (unfold nonneg3; simpl; repeat split; auto; lra). simpl.
  rewrite !sqrt_cot by auto. reflexivity.
Qed.
(** the half-angles come back only for 90 degrees *)
Theorem C42_values_differ : forall b, 0 < b < 180 ->
  (atan (sqrt (tan (radians b / 2))) = radians b / 2 <-> b = 90).
Proof.
  intros b Hb. set (x := radians b / 2).
  assert (X : 0 < x < PI / 2).
  { assert (radians 0 < radians b < radians 180) by (split; apply radians_lt; lra).
    rewrite radians_0, radians_180 in H. unfold x; lra. }
  assert (T : 0 < tan x) by (apply tan_gt_0; lra).
  split; intros H.
  - assert (E : sqrt (tan x) = tan x) by (rewrite <- H at 2; now rewrite tan_atan).
    assert (T1 : tan x = 1).
    { apply (f_equal (fun y => y * y)) in E. rewrite sqrt_sqrt in E by lra. nra. }
    assert (X4 : x = PI / 4).
    { rewrite <- (atan_tan x) by lra. rewrite T1. apply atan_1. }
    unfold x in X4. assert (E2 : radians b = radians 90) by (rewrite radians_90; lra).
    apply (f_equal degrees) in E2. now rewrite !degrees_radians in E2.
  - unfold x. subst b. rewrite radians_90. replace (PI / 2 / 2) with (PI / 4) by field.
    rewrite tan_PI4, sqrt_1. apply atan_1.
Qed.
Example C42_ex : exists p, ReconstructedPlane 45 30 120 [4; 9] 1 = Some p.
Proof. destruct (recon_value 45 30 120 [4; 9] 1) as (p & E & _). eauto. Qed.

Print Assumptions C38_reconstructed_axes.
Print Assumptions C38_round_trip.
Print Assumptions C92_left_handed.
Print Assumptions C39_plane_recovered.
Print Assumptions C40_axes_recovered_iff.
Print Assumptions C40_one_sign_only.
Print Assumptions C40_mirrored_refuted.
Print Assumptions C42_errors_swapped.
Print Assumptions C42_values_differ.
