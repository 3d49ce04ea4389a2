(** C225: girdles and error cones on a map. *)
From Coq Require Import Reals Lra Lia List Arith String Psatz.
From Verif Require Import RVec Trig SpecPlane MPca LSvd LPca LFit LAngles LFit2 LExamples MAxes LAxes MAxes2 MSphere MRecon LRecon PRecon
  PAxes MStereo SpecStereo PStereo MFront SpecFront PFront MAgree PAgree MMap.
Import ListNotations.
Open Scope R_scope.
Notation length := List.length.

(** * Specification *)
(** The place on the globe of a longitude and a latitude in degrees: x towards (0, 0), y
    towards (90, 0), z towards the pole. *)
Definition globe (p : R * R) : vec3 :=
  let lon := radians (fst p) in let lat := radians (snd p) in
  V3 (cos lat * cos lon) (cos lat * sin lon) (sin lat).
(** The map of a girdle has up at (0, 0), east at (90, 0) and north at the pole; the map of
    a cone has south at the pole. *)
Definition girdle_read (p : R * R) : vec3 := let g := globe p in V3 (vy g) (vz g) (vx g).
Definition cone_read (p : R * R) : vec3 := let g := globe p in V3 (vy g) (- vz g) (vx g).
(** the direction with north and south exchanged *)
Definition north_south (v : vec3) : vec3 := V3 (vx v) (- vy v) (vz v).
(** the lengths of the girdle's cone for error axes [h] *)
Definition cone_lengths (h : vec3) : vec3 := V3 (vx h * vx h) (vy h * vy h) (4 * (vz h * vz h)).

(** * Lemmas *)
Lemma read_plane : forall p, girdle_read (degrees (fst p), degrees (snd p)) = plane_dir true p.
Proof. intros [lon lat]. unfold girdle_read, globe, plane_dir. cbn [fst snd]. rewrite !radians_degrees. reflexivity. Qed.
Lemma read_normal : forall p, cone_read (degrees (fst p), degrees (snd p)) = normal_dir true p.
Proof. intros [lon lat]. unfold cone_read, globe, normal_dir. cbn [fst snd]. rewrite !radians_degrees. reflexivity. Qed.
Lemma axes_kw_same : forall st f m kw, hyperbolic_axes_kw st (Fitted (with_axes f m)) kw = hyperbolic_axes_kw st (Fitted f) kw.
Proof. reflexivity. Qed.

(** nothing but the axes changes, and these at most to the other direction, when they point down *)
Lemma run_axes : forall st cs f, exists m, map_run st f cs = with_axes f m /\
  (m = p_axes f \/ vz (r2 (p_axes f)) < 0 /\ m = mneg (p_axes f)).
Proof.
  intros st cs. induction cs as [|c cs IH]; intros f; cbn [map_run].
  - exists (p_axes f). split; auto. now destruct f.
  - assert (S : snd (map_step st f c) = f \/ snd (map_step st f c) = with_axes f (turned (p_axes f))).
    { destruct c as [kw|kw]; cbn [map_step snd]; auto. unfold cartopy_normal.
      destruct (hyperbolic_axes_kw st (Fitted f) kw) as [d|e|]; cbn [snd]; auto. }
    destruct S as [-> | ->]; [apply IH|]. destruct (IH (with_axes f (turned (p_axes f)))) as (m & -> & M). cbn [with_axes p_axes] in M.
    exists m. split; [reflexivity|]. unfold turned in M. destruct (Rlt_dec (vz (r2 (p_axes f))) 0) as [h|h].
    + destruct M as [-> | (B & ->)]; auto. exfalso. revert B. munf. lra.
    + tauto.
Qed.
Lemma cone_neg : forall axes h u, on_cone (mneg axes) h u <-> on_cone axes h u.
Proof.
  intros axes h u. unfold on_cone.
  replace (c0 (mneg axes) u * c0 (mneg axes) u) with (c0 axes u * c0 axes u) by (unfold c0; munf; ring).
  replace (c1 (mneg axes) u * c1 (mneg axes) u) with (c1 axes u * c1 axes u) by (unfold c1; munf; ring).
  replace (c2 (mneg axes) u * c2 (mneg axes) u) with (c2 axes u * c2 axes u) by (unfold c2; munf; ring). tauto.
Qed.
Lemma upward_neg : forall axes, vz (r2 axes) < 0 -> upward (mneg axes) = upward axes.
Proof.
  intros axes H. unfold upward. destruct (Rlt_dec (vz (r2 axes)) 0); [|lra].
  destruct (Rlt_dec (vz (r2 (mneg axes))) 0) as [h|h]; auto. exfalso. revert h. munf. lra.
Qed.
Lemma in_degrees_in : forall l q, In q (in_degrees l) -> exists q', In q' l /\ q = option_map (fun p => (degrees (fst p), degrees (snd p))) q'.
Proof. intros l q H. apply in_map_iff in H. destruct H as (q' & <- & I). eauto. Qed.

Lemma tilted_vec : forall a w t, unit3 a -> unit3 w -> dot w a = 0 ->
  unit3 (vsub (vscale (cos t) a) (vscale (sin t) w)) /\ dot (vsub (vscale (cos t) a) (vscale (sin t) w)) a = cos t.
Proof.
  intros a w t A W D. split.
  - replace (vsub _ _) with (vadd (vscale (cos (- t)) a) (vscale (sin (- t)) w)) by (rewrite cos_neg, sin_neg; apply vec3_eq; vunf; ring).
    apply unit_mix; auto. now rewrite dot_comm.
  - replace (dot _ _) with (cos t * dot a a - sin t * dot w a) by (vunf; ring). unfold unit3, nrm2 in A. rewrite A, D. ring.
Qed.

(** * C225 *)
(** Whatever was drawn of the fit before, the girdle of a plane that is not vertical has a
    thousand vertices on each ring; the outer ring is on the cone of the error axes below
    the plane, the hole on the cone above it. *)
Theorem C225_girdle : forall st f cs kw h, orthonormal (p_axes f) -> vz (r2 (p_axes f)) <> 0 ->
  hyperbolic_axes_kw st (Fitted f) kw = Ok h -> 0 < vx h -> 0 < vy h -> 0 < vz h ->
  exists outer hole, cartopy_girdle st (map_run st f cs) kw = Ok (mkPolygon outer [hole]) /\
  length outer = 1000%nat /\ length hole = 1000%nat /\
  (forall q, In q outer -> exists p, q = Some p /\ let u := girdle_read p in
     unit3 u /\ on_cone (p_axes f) (cone_lengths h) u /\ dot u (upward (p_axes f)) < 0) /\
  (forall q, In q hole -> exists p, q = Some p /\ let u := girdle_read p in
     unit3 u /\ on_cone (p_axes f) (cone_lengths h) u /\ 0 < dot u (upward (p_axes f))).
Proof.
  intros st f cs kw h O Z E P0 P1 P2. destruct (run_axes st cs f) as (m & -> & M). unfold cartopy_girdle. rewrite axes_kw_same, E.
  cbn [rbind with_axes p_axes]. do 2 eexists. split; [reflexivity|].
  assert (K : orthonormal m /\ vz (r2 m) <> 0 /\ upward m = upward (p_axes f) /\
              forall u, on_cone m (cone_lengths h) u <-> on_cone (p_axes f) (cone_lengths h) u).
  { destruct M as [-> | (B & ->)]; [tauto|]. split; [now apply orthonormal_neg|]. split; [munf; lra|].
    split; [now apply upward_neg|]. intros u. apply cone_neg. }
  destruct K as (O' & Z' & U' & C'). unfold in_degrees. rewrite rev_length, !map_length, !C57_count.
  split; auto. split; auto.
  assert (EL : squared (vx h) (vy h) (vz h) 1 = cone_lengths h).
  { unfold squared, cone_lengths. f_equal. ring. }
  assert (MD : mdiag h = mdiag (V3 (vx h) (vy h) (vz h))) by (destruct h; reflexivity).
  split.
  - intros q I. apply in_degrees_in in I. destruct I as (q' & I & ->). rewrite MD in I.
    destruct (C176_same_cone m (vx h) (vy h) (vz h) 1 true 1000 false 1 "upper" O' Z' P0 P1 P2 Rlt_0_1 ltac:(auto)) as (A & _).
    destruct (A q' I) as (p & -> & U & C & D). cbn [option_map]. eexists. split; [reflexivity|]. cbv zeta. rewrite read_plane.
    split; auto. rewrite <- C', <- EL, <- U'. split; auto.
  - intros q I. apply in_rev in I. apply in_degrees_in in I. destruct I as (q' & I & ->). rewrite MD in I.
    destruct (C176_same_cone m (vx h) (vy h) (vz h) 1 true 1000 false 1 "lower" O' Z' P0 P1 P2 Rlt_0_1 ltac:(auto)) as (A & _).
    destruct (A q' I) as (p & -> & U & C & D). cbn [option_map]. eexists. split; [reflexivity|]. cbv zeta. rewrite read_plane.
    split; auto. rewrite <- C', <- EL, <- U'. split; auto.
Qed.
(** The cone is the same whatever was drawn before; it has a thousand vertices, the one at
    angle [u] at the half width of the error axes from the upward normal. *)
Theorem C225_cone : forall st f cs kw h, orthonormal (p_axes f) ->
  hyperbolic_axes_kw st (Fitted f) kw = Ok h -> 0 < vx h -> 0 < vy h ->
  exists ring, fst (cartopy_normal st (map_run st f cs) kw) = Ok (mkPolygon ring []) /\
  fst (cartopy_normal st f kw) = Ok (mkPolygon ring []) /\ length ring = 1000%nat /\
  forall i, (i < 1000)%nat -> exists p, nth_error ring i = Some (Some p) /\ unit3 (cone_read p) /\
    dot (cone_read p) (upward (p_axes f)) = cos (half_width (vx h) (vy h) (vz h) 1 (angle_at 1000 i)).
Proof.
  intros st f cs kw h O E P0 P1. destruct (run_axes st cs f) as (m & -> & M). unfold cartopy_normal. rewrite axes_kw_same, E.
  cbn [with_axes p_axes]. rewrite (surjective_pairing (MStereo.normal_errors m _ _ _ _)), (surjective_pairing (MStereo.normal_errors (p_axes f) _ _ _ _)).
  cbn [fst]. eexists. split; [reflexivity|].
  assert (S : fst (MStereo.normal_errors m (mdiag h) 1 true 1000) = fst (MStereo.normal_errors (p_axes f) (mdiag h) 1 true 1000)).
  { destruct M as [-> | (B & ->)]; auto. unfold MStereo.normal_errors. cbn [fst].
    destruct (Rlt_dec (vz (r2 (p_axes f))) 0); [|lra]. destruct (Rlt_dec (vz (r2 (mneg (p_axes f)))) 0) as [h'|h']; auto.
    exfalso. revert h'. munf. lra. }
  rewrite S. split; auto.
  assert (MD : mdiag h = mdiag (V3 (vx h) (vy h) (vz h))) by (destruct h; reflexivity). rewrite MD.
  split.
  - unfold in_degrees, MStereo.normal_errors, ellipse; cbn [fst]. now rewrite !map_length, linspace_length.
  - intros i I. destruct (normal_point (p_axes f) (vx h) (vy h) (vz h) 1 true 1000 i O P0 P1 I) as (q & N & D & W & WU).
    eexists. unfold in_degrees. rewrite nth_error_map. cbn [fst] in N. rewrite N. split; [reflexivity|]. rewrite read_normal.
    destruct (upward_line (p_axes f) O) as [UU _]. rewrite D.
    apply tilted_vec; auto.
Qed.
(** Both on one map: read like the girdle, the cone stands around the normal with north and
    south exchanged, which is the normal exactly when the plane's normal has no northward part. *)
Theorem C225_mirrored : forall st f cs kw h, orthonormal (p_axes f) ->
  hyperbolic_axes_kw st (Fitted f) kw = Ok h -> 0 < vx h -> 0 < vy h ->
  exists ring, fst (cartopy_normal st (map_run st f cs) kw) = Ok (mkPolygon ring []) /\
  (forall i, (i < 1000)%nat -> exists p, nth_error ring i = Some (Some p) /\
    dot (girdle_read p) (north_south (upward (p_axes f))) = cos (half_width (vx h) (vy h) (vz h) 1 (angle_at 1000 i))) /\
  (north_south (upward (p_axes f)) = upward (p_axes f) <-> vy (r2 (p_axes f)) = 0).
Proof.
  intros st f cs kw h O E P0 P1. destruct (C225_cone st f cs kw h O E P0 P1) as (ring & R & _ & _ & V).
  exists ring. split; auto. split.
  - intros i I. destruct (V i I) as (p & N & _ & D). exists p. split; auto. rewrite <- D.
    unfold girdle_read, cone_read, north_south. vunf. ring.
  - assert (W : vy (upward (p_axes f)) = 0 <-> vy (r2 (p_axes f)) = 0).
    { unfold upward. destruct (Rlt_dec _ _); [|tauto]. vunf. lra. }
    rewrite <- W. destruct (upward (p_axes f)) as [a b c]. unfold north_south. cbn [vx vy vz].
    split; intros H; [injection H; lra|]. subst. f_equal. ring.
Qed.
(** Drawing a cone first leaves another fit behind, exactly when its axes pointed down *)
Theorem C225_left_behind : forall st f kw h, orthonormal (p_axes f) -> hyperbolic_axes_kw st (Fitted f) kw = Ok h ->
  (snd (cartopy_normal st f kw) = f <-> 0 <= vz (r2 (p_axes f))).
Proof.
  intros st f kw h O E. unfold cartopy_normal. rewrite E, (surjective_pairing (MStereo.normal_errors _ _ _ _ _)). cbn [snd].
  unfold MStereo.normal_errors. cbn [snd]. destruct (Rlt_dec (vz (r2 (p_axes f))) 0) as [b|b].
  - split; [|lra]. intros H. apply (f_equal p_axes) in H. cbn [with_axes p_axes] in H.
    apply (f_equal (fun m => vz (r2 m))) in H. revert H. munf. lra.
  - split; [lra|]. intros _. now destruct f.
Qed.
(** a fit and its error axes *)
Example C225_ex : exists f h, PCAOrientation svd_ref (axis_data 3 2 1) None None = Ok f /\
  orthonormal (p_axes f) /\ vz (r2 (p_axes f)) <> 0 /\
  hyperbolic_axes_kw (const_stats 1) (Fitted f) [] = Ok h /\ h = V3 (12 / 5) (4 / 5) (4 / 5) /\
  upward (p_axes f) = ez.
Proof.
  destruct example_fit as (f & F & S & P & G).
  destruct (fit_inv _ _ _ lapack_ref F) as (_ & u & m & SV & Hm & _ & _ & Em & _ & En & D).
  assert (O : orthonormal (p_axes f)) by apply SV.
  pose proof (axis_normal _ _ lapack_ref F) as N. pose proof (normal_line f D) as L. rewrite N in L.
  assert (NZ : vz (r2 (p_axes f)) <> 0).
  { intros Z. destruct L as [L|L]; apply (f_equal vz) in L; revert L; vunf; rewrite Z; lra. }
  exists f, (V3 (12 / 5) (4 / 5) (4 / 5)). do 3 (split; auto). split; [|split; auto].
  - assert (Q : sqrt 2 * sqrt 2 = 2) by (apply sqrt_sqrt; lra).
    assert (EV : eigenvalues f = Some (V3 (18 / 5) (8 / 5) (2 / 5))).
    { unfold eigenvalues. rewrite En, S. cbn [vx vy vz].
      change (Z.of_nat (length (axis_data 3 2 1)) - 1)%Z with 5%Z. destruct (Req_EM_T 5 0); [lra|].
      replace (sqrt 2 * 3 * (sqrt 2 * 3)) with (18 * 1) by nra. replace (sqrt 2 * 2 * (sqrt 2 * 2)) with (8 * 1) by nra.
      replace (sqrt 2 * 1 * (sqrt 2 * 1)) with (2 * 1) by nra. f_equal. f_equal; field. }
    unfold hyperbolic_axes_kw. cbn -[statistical_axes]. unfold statistical_axes. rewrite EV. cbn [obind k_method].
    unfold noise_covariance. rewrite EV. cbn [obind vz]. unfold n_of. rewrite En. simpl INR. unfold fdiv.
    destruct (Req_EM_T _ 0); [lra|]. cbn [obind k_chisq fisher_statistic const_stats f_ppf]. unfold vsqrt, fsqrt, vscale. cbn [vx vy vz].
    do 3 (destruct (Rlt_dec _ 0); [lra|]). cbn [obind k_all_axes]. unfold apply_error_scaling. cbn [obind]. f_equal.
    replace (2 / 5 / (1 + 1 + 1 + 1 + 1 + 1 - 2) * (4 * (18 / 5))) with (6 / 5 * (6 / 5)) by field.
    replace (2 / 5 / (1 + 1 + 1 + 1 + 1 + 1 - 2) * (4 * (8 / 5))) with (4 / 5 * (4 / 5)) by field.
    replace (2 / 5 / (1 + 1 + 1 + 1 + 1 + 1 - 2) * (4 * (2 / 5))) with (2 / 5 * (2 / 5)) by field.
    rewrite !sqrt_square by lra. unfold vabs, vsub. cbn [vx vy vz]. cbn [of_option]. try (apply f_equal); apply vec3_eq; cbn [vx vy vz]; [rewrite Rabs_right by lra|rewrite Rabs_right by lra|rewrite Rabs_left by lra]; lra.
  - unfold upward. destruct (Rlt_dec (vz (r2 (p_axes f))) 0) as [b|b]; destruct L as [L|L]; auto;
      apply (f_equal vz) in L; exfalso; revert L b; destruct (r2 (p_axes f)); vunf; intros; lra.
Qed.

Print Assumptions C225_girdle.
Print Assumptions C225_cone.
Print Assumptions C225_mirrored.
Print Assumptions C225_left_behind.
