(** C227: maps of a reconstructed plane. *)
From Coq Require Import Reals Lra Lia List Arith String Psatz.
From Verif Require Import RVec Trig SpecPlane MPca LSvd LPca LFit LAngles MSphere MRecon LRecon PRecon
  MStereo SpecStereo PStereo MFront SpecFront PFront MAgree PAgree MMap PMap MShell.
Import ListNotations.
Open Scope R_scope.
Notation length := List.length.

(** * Specification *)
(** These maps have up at the pole, east at (90, 0) and north at (180, 0). *)
Definition shell_read (p : R * R) : vec3 := let g := globe p in V3 (vy g) (- vx g) (vz g).

(** * Lemmas *)
Lemma shell_plane : forall p, shell_read (degrees (fst p), degrees (snd p)) = plane_dir false p.
Proof. intros [lon lat]. unfold shell_read, globe, plane_dir. cbn [fst snd]. rewrite !radians_degrees. reflexivity. Qed.
Lemma shell_cone_dir : forall p, shell_read (degrees (fst p), degrees (snd p)) = normal_dir false p.
Proof. intros [lon lat]. unfold shell_read, globe, normal_dir. cbn [fst snd]. rewrite !radians_degrees. reflexivity. Qed.
Lemma shell_axes : forall cs s, exists m, shell_run s cs = mkShell m (sh_cov s) /\
  (m = sh_axes s \/ vz (r2 (sh_axes s)) < 0 /\ m = mneg (sh_axes s)).
Proof.
  induction cs as [|c cs IH]; intros s; cbn [shell_run].
  - exists (sh_axes s). split; auto. now destruct s.
  - destruct c; [apply IH|]. destruct (IH (snd (shell_normal s))) as (m & -> & M).
    unfold shell_normal, MStereo.normal_errors in M |- *. cbn [snd sh_axes sh_cov] in M |- *. exists m. split; [reflexivity|].
    destruct (Rlt_dec (vz (r2 (sh_axes s))) 0) as [h|h]; [|exact M].
    destruct M as [-> | (B & ->)]; auto. exfalso. revert B. munf. lra.
Qed.

Lemma unit_dot_bound : forall u v, unit3 u -> unit3 v -> -1 <= dot u v <= 1.
Proof.
  intros u v U V. pose proof (nrm2_nonneg (vsub u v)) as K1. pose proof (nrm2_nonneg (vadd u v)) as K2. unfold unit3 in *.
  revert U V K1 K2. vunf. intros. split; lra.
Qed.
Lemma spread_between : forall x y d0 d1 u, 0 < x -> x <= d0 <= y -> x <= d1 <= y -> x <= spread d0 d1 u <= y.
Proof.
  intros x y d0 d1 u X D0 D1. unfold spread. pose proof (sincos1 u) as SC.
  assert (A : x * x <= d0 * d0 <= y * y) by (split; apply Rmult_le_compat; lra).
  assert (B : x * x <= d1 * d1 <= y * y) by (split; apply Rmult_le_compat; lra).
  pose proof (Rle_0_sqr (cos u)) as C. pose proof (Rle_0_sqr (sin u)) as S. unfold Rsqr in *.
  assert (E : d0 * cos u * (d0 * cos u) + d1 * sin u * (d1 * sin u) = d0 * d0 * (cos u * cos u) + d1 * d1 * (sin u * sin u)) by ring.
  rewrite E. split.
  - rewrite <- (sqrt_square x) at 1 by lra. apply sqrt_le_1_alt.
    assert (x * x * (cos u * cos u) <= d0 * d0 * (cos u * cos u)) by (apply Rmult_le_compat_r; lra).
    assert (x * x * (sin u * sin u) <= d1 * d1 * (sin u * sin u)) by (apply Rmult_le_compat_r; lra). nra.
  - rewrite <- (sqrt_square y) by lra. apply sqrt_le_1_alt.
    assert (d0 * d0 * (cos u * cos u) <= y * y * (cos u * cos u)) by (apply Rmult_le_compat_r; lra).
    assert (d1 * d1 * (sin u * sin u) <= y * y * (sin u * sin u)) by (apply Rmult_le_compat_r; lra). nra.
Qed.

(** * C227 *)
(** Whatever was drawn before, both rings of the girdle have a thousand vertices on the cone
    of the error axes, at the half width of the errors below and above the plane. *)
Theorem C227_girdle : forall axes h cs, orthonormal axes -> vz (r2 axes) <> 0 -> 0 < vx h -> 0 < vy h -> 0 < vz h ->
  exists outer hole, shell_girdle (shell_run (mkShell axes (mdiag h)) cs) = mkPolygon outer [hole] /\
  length outer = 1000%nat /\ length hole = 1000%nat /\
  forall i, (i < 1000)%nat -> exists p q, nth_error outer i = Some (Some p) /\ nth_error hole i = Some (Some q) /\
    let t := half_width (vx h) (vy h) (vz h) 1 (angle_at 1000 i) in
    unit3 (shell_read p) /\ unit3 (shell_read q) /\
    on_cone axes (cone_lengths h) (shell_read p) /\ on_cone axes (cone_lengths h) (shell_read q) /\
    dot (shell_read p) (upward axes) = - sin t /\ dot (shell_read q) (upward axes) = sin t.
Proof.
  intros axes h cs O Z P0 P1 P2. destruct (shell_axes cs (mkShell axes (mdiag h))) as (m & -> & M). cbn [sh_axes sh_cov] in M |- *.
  unfold shell_girdle. cbn [sh_axes sh_cov]. do 2 eexists. split; [reflexivity|].
  assert (K : orthonormal m /\ vz (r2 m) <> 0 /\ upward m = upward axes /\
              forall u, on_cone m (cone_lengths h) u <-> on_cone axes (cone_lengths h) u).
  { destruct M as [-> | (B & ->)]; [tauto|]. split; [now apply orthonormal_neg|]. split; [munf; lra|].
    split; [now apply upward_neg|]. intros u. apply cone_neg. }
  destruct K as (O' & Z' & U' & C'). unfold in_degrees. rewrite !map_length, !C57_count. split; auto. split; auto.
  assert (EL : squared (vx h) (vy h) (vz h) 1 = cone_lengths h).
  { unfold squared, cone_lengths. f_equal. ring. }
  replace (mdiag h) with (mdiag (V3 (vx h) (vy h) (vz h))) by (destruct h; reflexivity).
  intros i I. cbv zeta.
  destruct (C57_sheets m (vx h) (vy h) (vz h) 1 false 1000 i O' Z' P0 P1 I) as (p0 & pu & pl & N0 & NU & NL & _ & _ & DU & DL & AU & AL).
  exists (degrees (fst pu), degrees (snd pu)), (degrees (fst pl), degrees (snd pl)). rewrite !nth_error_map, NU, NL.
  split; [reflexivity|]. split; [reflexivity|]. rewrite !shell_plane.
  destruct (C176_same_cone m (vx h) (vy h) (vz h) 1 false 1000 false 1 "upper" O' Z' P0 P1 P2 Rlt_0_1 ltac:(auto)) as (A & _).
  destruct (A _ (nth_error_In _ _ NU)) as (pu' & EU & UU & CU & _). injection EU as <-.
  destruct (C176_same_cone m (vx h) (vy h) (vz h) 1 false 1000 false 1 "lower" O' Z' P0 P1 P2 Rlt_0_1 ltac:(auto)) as (B & _).
  destruct (B _ (nth_error_In _ _ NL)) as (pl' & EL' & UL & CL & _). injection EL' as <-.
  rewrite EL in CU, CL. split; auto. split; auto. split; [now apply C'|]. split; [now apply C'|].
  destruct (upward_line m O') as [UM _]. rewrite U' in *.
  assert (SB : forall u, unit3 u -> -1 <= dot u (upward axes) <= 1).
  { intros u Hu. now apply unit_dot_bound. }
  split.
  - rewrite <- sin_neg, <- AU, sin_asin; auto.
  - rewrite <- AL, sin_asin; auto.
Qed.
(** The cone is the same whatever was drawn before, and on the same map as the girdle it
    stands around the upward normal. *)
Theorem C227_cone : forall axes h cs, orthonormal axes -> 0 < vx h -> 0 < vy h ->
  let s := mkShell axes (mdiag h) in
  exists ring, fst (shell_normal (shell_run s cs)) = mkPolygon ring [] /\ fst (shell_normal s) = mkPolygon ring [] /\
  length ring = 1000%nat /\
  forall i, (i < 1000)%nat -> exists p, nth_error ring i = Some (Some p) /\ unit3 (shell_read p) /\
    dot (shell_read p) (upward axes) = cos (half_width (vx h) (vy h) (vz h) 1 (angle_at 1000 i)).
Proof.
  intros axes h cs O P0 P1 s. destruct (shell_axes cs s) as (m & -> & M). unfold s in *. cbn [sh_axes sh_cov] in M |- *.
  unfold shell_normal. cbn [sh_axes sh_cov].
  rewrite (surjective_pairing (MStereo.normal_errors m _ _ _ _)), (surjective_pairing (MStereo.normal_errors axes _ _ _ _)).
  cbn [fst]. eexists. split; [reflexivity|].
  assert (S : fst (MStereo.normal_errors m (mdiag h) 1 false 1000) = fst (MStereo.normal_errors axes (mdiag h) 1 false 1000)).
  { destruct M as [-> | (B & ->)]; auto. unfold MStereo.normal_errors. cbn [fst].
    destruct (Rlt_dec (vz (r2 axes)) 0); [|lra]. destruct (Rlt_dec (vz (r2 (mneg axes))) 0) as [h'|h']; auto.
    exfalso. revert h'. munf. lra. }
  rewrite S. split; auto.
  replace (mdiag h) with (mdiag (V3 (vx h) (vy h) (vz h))) by (destruct h; reflexivity).
  split.
  - unfold in_degrees, MStereo.normal_errors, ellipse; cbn [fst]. now rewrite !map_length, linspace_length.
  - intros i I. destruct (normal_point axes (vx h) (vy h) (vz h) 1 false 1000 i O P0 P1 I) as (q & N & D & W & WU).
    eexists. unfold in_degrees. rewrite nth_error_map. cbn [fst] in N. rewrite N. split; [reflexivity|]. rewrite shell_cone_dir.
    destruct (upward_line axes O) as [UU _]. rewrite D. apply tilted_vec; auto.
Qed.
(** Drawing the cone leaves the caller's axes as they were exactly when they do not point down *)
Theorem C227_caller : forall axes h, sh_axes (snd (shell_normal (mkShell axes (mdiag h)))) = axes <-> 0 <= vz (r2 axes).
Proof.
  intros axes h. unfold shell_normal, MStereo.normal_errors. cbn [snd sh_axes]. destruct (Rlt_dec (vz (r2 axes)) 0) as [b|b].
  - split; [|lra]. intros H. apply (f_equal (fun m => vz (r2 m))) in H. revert H. munf. lra.
  - split; [lra|reflexivity].
Qed.
(** A plane given by strike, dip, rake and two angular errors is not changed by drawing; all
    vertices are at more than half the smaller and less than the greater of the errors from
    the normal and the plane, the first of them at more than half the second error. *)
Theorem C227_reconstructed : forall s d r a b ne cs, 0 <= d < 90 -> 0 < a < 180 -> 0 < b < 180 -> 0 < ne ->
  exists p sh ring outer hole, ReconstructedPlane s d r [a; b] ne = Some p /\ shell_of p = Some sh /\ shell_run sh cs = sh /\
  fst (shell_normal sh) = mkPolygon ring [] /\ shell_girdle sh = mkPolygon outer [hole] /\
  length ring = 1000%nat /\ length outer = 1000%nat /\ length hole = 1000%nat /\
  forall i, (i < 1000)%nat -> exists t c q q', nth_error ring i = Some (Some c) /\ nth_error outer i = Some (Some q) /\
    nth_error hole i = Some (Some q') /\
    dot (shell_read c) (plane_normal s d) = cos t /\ dot (shell_read q) (plane_normal s d) = - sin t /\
    dot (shell_read q') (plane_normal s d) = sin t /\
    radians (Rmin a b) / 2 < t < radians (Rmax a b) /\
    (i = 0%nat -> t = atan (2 * tan (radians b / 2)) /\ radians b / 2 < t < radians b).
Proof.
  intros s d r a b ne cs Hd Ha Hb Hn.
  destruct (recon_value s d r [a; b] ne) as (p & E & _ & _ & _ & _ & _ & _ & H).
  destruct (C38_reconstructed_axes s d r [a; b] ne) as (p' & E' & _ & O & _ & _ & _ & PN).
  rewrite E in E'. injection E' as <-. destruct PN as [_ PN]; [lra|].
  assert (R : forall x, 0 < x < 180 -> 0 < radians x / 2 < PI / 2).
  { intros x Hx. assert (radians 0 < radians x < radians 180) by (split; apply radians_lt; lra).
    rewrite radians_0, radians_180 in H0. lra. }
  assert (Z : 0 < vz (r2 (rp_axes p))).
  { rewrite PN, plane_normal_components. simpl. apply cos_gt_0.
    - assert (radians 0 <= radians d) by (apply radians_le; lra). rewrite radians_0 in H0. pose proof PI_pos. lra.
    - rewrite <- radians_90. apply radians_lt. lra. }
  assert (UP : upward (rp_axes p) = plane_normal s d).
  { unfold upward. destruct (Rlt_dec (vz (r2 (rp_axes p))) 0); [lra|auto]. }
  assert (TA : 0 < tan (radians a / 2)) by (apply tan_gt_0; apply R; auto).
  assert (TB : 0 < tan (radians b / 2)) by (apply tan_gt_0; apply R; auto).
  set (h0 := ne / tan (radians b / 2)). set (h1 := ne / tan (radians a / 2)).
  assert (HY : rp_hyperbolic p = Some [h0; h1; ne]).
  { rewrite H. simpl. rewrite !over_tan_value by (apply R; auto). reflexivity. }
  assert (P0 : 0 < h0) by (unfold h0; now apply Rdiv_lt_0_compat).
  assert (P1 : 0 < h1) by (unfold h1; now apply Rdiv_lt_0_compat).
  set (sh := mkShell (rp_axes p) (mdiag (V3 h0 h1 ne))).
  assert (RUN : shell_run sh cs = sh).
  { destruct (shell_axes cs sh) as (m & -> & M). destruct M as [-> | (B & _)]; [reflexivity|]. unfold sh in B. cbn [sh_axes] in B. lra. }
  destruct (C227_cone (rp_axes p) (V3 h0 h1 ne) [] O P0 P1) as (ring & _ & RG & RL & RV).
  destruct (C227_girdle (rp_axes p) (V3 h0 h1 ne) [] O ltac:(lra) P0 P1 Hn) as (outer & hole & GG & GO & GH & GV).
  exists p, sh, ring, outer, hole. split; auto. split; [unfold shell_of, recon_covariance; rewrite HY; reflexivity|].
  do 6 (split; auto). intros i I. destruct (RV i I) as (c & NC & _ & DC). destruct (GV i I) as (q & q' & NQ & NQ' & _ & _ & _ & _ & DQ & DQ').
  cbn [vx vy vz] in *. set (u := angle_at 1000 i) in *. exists (half_width h0 h1 ne 1 u), c, q, q'. rewrite <- UP.
  do 6 (split; auto).
  set (lo := Rmin a b). set (hi := Rmax a b).
  assert (B : 0 < lo < 180 /\ 0 < hi < 180 /\ lo <= a <= hi /\ lo <= b <= hi).
  { unfold lo, hi, Rmin, Rmax. destruct (Rle_dec a b); lra. }
  destruct B as (BL & BH & BA & BB).
  assert (TM : forall x y, 0 < x < 180 -> 0 < y < 180 -> x <= y -> tan (radians x / 2) <= tan (radians y / 2)).
  { intros x y X Y L. pose proof (R x X). pose proof (R y Y). pose proof (radians_le x y L).
    destruct (Req_dec (radians x / 2) (radians y / 2)) as [Q|Q]; [rewrite Q; lra|]. apply Rlt_le, tan_increasing; lra. }
  assert (TL : 0 < tan (radians lo / 2)) by (apply tan_gt_0; apply R; auto).
  assert (TH : 0 < tan (radians hi / 2)) by (apply tan_gt_0; apply R; auto).
  assert (IV : forall x y, 0 < x -> 0 < y -> x <= y -> ne / y <= ne / x).
  { intros x y X Y L. unfold Rdiv. apply Rmult_le_compat_l; [lra|]. now apply Rinv_le_contravar. }
  assert (SP : ne / tan (radians hi / 2) <= spread h0 h1 u <= ne / tan (radians lo / 2)).
  { apply spread_between.
    - now apply Rdiv_lt_0_compat.
    - unfold h0. split; apply IV; auto; apply TM; auto; tauto.
    - unfold h1. split; apply IV; auto; apply TM; auto; tauto. }
  pose proof (spread_pos h0 h1 u P0 P1) as SPP.
  assert (QQ : 2 * tan (radians lo / 2) <= 2 * ne * 1 / spread h0 h1 u <= 2 * tan (radians hi / 2)).
  { set (w := spread h0 h1 u) in *. assert (W1 : tan (radians lo / 2) * w <= ne).
    { apply (Rmult_le_reg_r (/ tan (radians lo / 2))); [now apply Rinv_0_lt_compat|].
      replace (tan (radians lo / 2) * w * / tan (radians lo / 2)) with w by (field; lra). apply SP. }
    assert (W2 : ne <= tan (radians hi / 2) * w).
    { apply (Rmult_le_reg_r (/ tan (radians hi / 2))); [now apply Rinv_0_lt_compat|].
      replace (tan (radians hi / 2) * w * / tan (radians hi / 2)) with w by (field; lra). apply SP. }
    split; apply (Rmult_le_reg_r w); auto; replace (2 * ne * 1 / w * w) with (2 * ne) by (field; lra); lra. }
  pose proof (tan_half_bounds lo BL) as HL. pose proof (tan_half_bounds hi BH) as HH.
  assert (AM : forall x y, x <= y -> atan x <= atan y).
  { intros x y [L|L]; [apply Rlt_le; now apply atan_increasing|rewrite L; lra]. }
  split.
  - unfold half_width. pose proof (AM _ _ (proj1 QQ)). pose proof (AM _ _ (proj2 QQ)). lra.
  - intros I0. assert (T0 : half_width h0 h1 ne 1 u = atan (2 * tan (radians b / 2))).
    { unfold half_width, u. rewrite I0. f_equal. unfold angle_at, spread. simpl INR.
      replace (2 * PI * (0 / _)) with 0 by (unfold Rdiv; ring). rewrite cos_0, sin_0.
      replace (h0 * 1 * (h0 * 1) + h1 * 0 * (h1 * 0)) with (h0 * h0) by ring. rewrite sqrt_sq_pos by lra.
      unfold h0. field. lra. }
    rewrite T0. split; auto. now apply tan_half_bounds.
Qed.
(** a plane with errors of 5 and 10 degrees, after two calls; axes that point down *)
Example C227_ex : (exists p sh ring, ReconstructedPlane 30 40 20 [5; 10] 1 = Some p /\ shell_of p = Some sh /\
  shell_run sh [SCone; SGirdle] = sh /\ fst (shell_normal sh) = mkPolygon ring [] /\
  exists c, nth_error ring 0 = Some (Some c) /\
    cos (radians 10) < dot (shell_read c) (plane_normal 30 40) < cos (radians 5)) /\
  sh_axes (snd (shell_normal (mkShell (M3 ex (V3 0 (-1) 0) (V3 0 0 (-1))) (mdiag (V3 3 2 1))))) <> M3 ex (V3 0 (-1) 0) (V3 0 0 (-1)).
Proof.
  split.
  - destruct (C227_reconstructed 30 40 20 5 10 1 [SCone; SGirdle]) as (p & sh & ring & outer & hole & A & B & C & D & _ & _ & _ & _ & V); try lra.
    exists p, sh, ring. do 4 (split; auto). destruct (V 0%nat ltac:(lia)) as (t & c & _ & _ & N & _ & _ & DC & _ & _ & _ & T).
    destruct (T eq_refl) as (_ & T'). exists c. split; auto. rewrite DC.
    assert (E : radians 10 / 2 = radians 5) by (unfold radians; field). rewrite E in T'.
    assert (K : 0 < radians 5 /\ radians 10 < PI).
    { rewrite <- radians_0, <- radians_180. split; apply radians_lt; lra. }
    split; apply cos_decreasing_1; lra.
  - intros H. apply C227_caller in H. cbn in H. lra.
Qed.

Print Assumptions C227_girdle.
Print Assumptions C227_cone.
Print Assumptions C227_caller.
Print Assumptions C227_reconstructed.
