(** Properties of the browser's stereonet: projection, compass, sizes. *)
From Coq Require Import Reals Lra Lia Psatz List Arith String Bool.
From Verif Require Import RVec Trig SpecPlane LSvd LFit LAngles MPca MAxes MSphere LRecon MFront SpecStereo SpecFront PFront MUi MNet SpecNet.
Import ListNotations.
Open Scope R_scope.

(** * Trigonometry of the view *)
Lemma rad_90m : forall x, radians (90 - x) = PI / 2 - radians x. Proof. intros; unfold radians; field. Qed.
Lemma rad_neg : forall x, radians (- x) = - radians x. Proof. intros; unfold radians; field. Qed.
Lemma rad_0 : radians 0 = 0. Proof. unfold radians; field. Qed.
Lemma rad_90 : radians 90 = PI / 2. Proof. unfold radians; field. Qed.
Lemma rad_180 : radians 180 = PI. Proof. unfold radians; field. Qed.
Lemma rad_180m : forall x, radians (180 - x) = PI - radians x. Proof. intros; unfold radians; field. Qed.
Lemma cos_90m : forall x, cos (PI / 2 - x) = sin x. Proof. intros; now rewrite cos_shift. Qed.
Lemma sin_90m : forall x, sin (PI / 2 - x) = cos x. Proof. intros; now rewrite sin_shift. Qed.
Lemma cos_PIm : forall x, cos (PI - x) = - cos x. Proof. intros; rewrite cos_minus, cos_PI, sin_PI; ring. Qed.
Lemma sin_PIm : forall x, sin (PI - x) = sin x. Proof. intros; rewrite sin_minus, cos_PI, sin_PI; ring. Qed.
Lemma sc1 : forall x, sin x * sin x + cos x * cos x = 1.
Proof. intros x. pose proof (sin2_cos2 x) as H. unfold Rsqr in H. exact H. Qed.

Lemma enu_unit : forall q, unit3 (enu q).
Proof.
  intros [lon lat]. unfold unit3, enu, nrm2, dot. cbn [fst snd vx vy vz].
  pose proof (sc1 (radians lon)) as A. pose proof (sc1 (radians lat)) as B.
  transitivity (cos (radians lat) * cos (radians lat) * (sin (radians lon) * sin (radians lon) + cos (radians lon) * cos (radians lon))
                + sin (radians lat) * sin (radians lat)); [ring|]. rewrite A. lra.
Qed.

Lemma turned_base : forall l p,
  enu (90 - l, 0) = V3 (cos (radians l)) (- sin (radians l)) 0 /\
  enu (- l, 90 - p) = V3 (- (sin (radians p) * sin (radians l))) (- (sin (radians p) * cos (radians l))) (cos (radians p)) /\
  enu (- l, - p) = V3 (- (cos (radians p) * sin (radians l))) (- (cos (radians p) * cos (radians l))) (- sin (radians p)).
Proof.
  intros l p. unfold enu. cbn [fst snd]. rewrite !rad_90m, !rad_neg, rad_0, !cos_neg, !sin_neg, !cos_90m, !sin_90m, cos_0, sin_0.
  repeat split; apply vec3_eq; cbn [vx vy vz]; ring.
Qed.

Lemma turned_proper : forall r, proper (turned r).
Proof.
  intros [[l p] g]. unfold proper, turned. destruct (turned_base l p) as (E1 & E2 & E3). rewrite E1, E2, E3.
  pose proof (sc1 (radians l)) as A. pose proof (sc1 (radians p)) as B. pose proof (sc1 (radians g)) as C.
  set (sl := sin (radians l)) in *. set (cl := cos (radians l)) in *.
  set (sp := sin (radians p)) in *. set (cp := cos (radians p)) in *.
  set (sg := sin (radians g)) in *. set (cg := cos (radians g)) in *.
  unfold dot, cross, vsub, vadd, vscale. cbn [v_centre v_right v_up vx vy vz].
  split; [|split; [|split; [|split]]].
  - replace (_ + _ + _) with (cp * cp * (sl * sl + cl * cl) + sp * sp) by ring. rewrite A. lra.
  - replace (_ + _ + _) with (cg * cg * (sl * sl + cl * cl) + sg * sg * (sp * sp * (sl * sl + cl * cl) + cp * cp)) by ring.
    rewrite A. replace (sp * sp * 1 + cp * cp) with 1 by lra. lra.
  - replace (_ + _ + _) with (sg * sg * (sl * sl + cl * cl) + cg * cg * (sp * sp * (sl * sl + cl * cl) + cp * cp)) by ring.
    rewrite A. replace (sp * sp * 1 + cp * cp) with 1 by lra. lra.
  - replace (_ + _ + _) with (sg * cg * ((sl * sl + cl * cl) - (sp * sp * (sl * sl + cl * cl) + cp * cp))) by ring.
    rewrite A. replace (sp * sp * 1 + cp * cp) with 1 by lra. ring.
  - apply vec3_eq; cbn [vx vy vz].
    + replace (_ - _) with (- (cp * sl) * (sg * sg + cg * cg)) by ring. rewrite C. ring.
    + replace (_ - _) with (- (cp * cl) * (sg * sg + cg * cg)) by ring. rewrite C. ring.
    + replace (_ - _) with (- sp * (sl * sl + cl * cl) * (sg * sg + cg * cg)) by ring. rewrite A, C. ring.
Qed.

(** Components of a direction in an orthonormal frame *)
Lemma proper_parseval : forall w u, proper w -> unit3 u ->
  dot u (v_centre w) * dot u (v_centre w) + dot u (v_right w) * dot u (v_right w) + dot u (v_up w) * dot u (v_up w) = 1.
Proof.
  intros [c e n] u (C & E & N & EN & X) U. cbn [v_centre v_right v_up] in *. subst c.
  destruct u as [x y z], e as [a b d], n as [f g h]. unfold unit3, nrm2, dot, cross in *. cbn [vx vy vz] in *.
  (* the Gram determinant of (u, e, n) *)
  assert (G : forall x y z a b d f g h : R,
     (x * (b * h - d * g) + y * (d * f - a * h) + z * (a * g - b * f)) * (x * (b * h - d * g) + y * (d * f - a * h) + z * (a * g - b * f))
     = (x*x+y*y+z*z) * ((a*a+b*b+d*d) * (f*f+g*g+h*h) - (a*f+b*g+d*h) * (a*f+b*g+d*h))
       - (x*a+y*b+z*d) * ((x*a+y*b+z*d) * (f*f+g*g+h*h) - (a*f+b*g+d*h) * (x*f+y*g+z*h))
       + (x*f+y*g+z*h) * ((x*a+y*b+z*d) * (a*f+b*g+d*h) - (a*a+b*b+d*d) * (x*f+y*g+z*h))) by (intros; ring).
  rewrite (G x y z a b d f g h). rewrite U, E, N, EN. ring.
Qed.

Lemma rotate_components : forall r q,
  let rq := d3_rotate (rad3 r) (radians (fst q), radians (snd q)) in
  let w := turned r in let u := enu q in
  cos (fst rq) * cos (snd rq) = dot u (v_centre w) /\
  cos (snd rq) * sin (fst rq) = dot u (v_right w) /\ sin (snd rq) = dot u (v_up w).
Proof.
  intros [[l p] g] [lon lat] rq w u.
  pose proof (proper_parseval w u (turned_proper _) (enu_unit _)) as P.
  assert (A : dot u (v_centre w) = cos (radians lon + radians l) * cos (radians lat) * cos (radians p) - sin (radians lat) * sin (radians p)).
  { unfold w, u, turned. destruct (turned_base l p) as (E1 & E2 & E3). rewrite E1, E2, E3.
    unfold enu, dot. cbn [v_centre fst snd vx vy vz]. rewrite cos_plus. ring. }
  assert (B : dot u (v_right w) = sin (radians lon + radians l) * cos (radians lat) * cos (radians g)
     - (sin (radians lat) * cos (radians p) + cos (radians lon + radians l) * cos (radians lat) * sin (radians p)) * sin (radians g)).
  { unfold w, u, turned. destruct (turned_base l p) as (E1 & E2 & E3). rewrite E1, E2, E3.
    unfold enu, dot, vsub, vscale. cbn [v_right fst snd vx vy vz]. rewrite cos_plus, sin_plus. ring. }
  assert (C : dot u (v_up w) = (sin (radians lat) * cos (radians p) + cos (radians lon + radians l) * cos (radians lat) * sin (radians p)) * cos (radians g)
     + sin (radians lon + radians l) * cos (radians lat) * sin (radians g)).
  { unfold w, u, turned. destruct (turned_base l p) as (E1 & E2 & E3). rewrite E1, E2, E3.
    unfold enu, dot, vadd, vscale. cbn [v_up fst snd vx vy vz]. rewrite cos_plus, sin_plus. ring. }
  unfold rq, d3_rotate, rad3. cbn [fst snd]. rewrite <- A, <- B, <- C.
  set (X := dot u (v_centre w)) in *. set (Y := dot u (v_right w)) in *. set (Z := dot u (v_up w)) in *.
  assert (ZB : -1 <= Z <= 1) by nra. rewrite sin_asin by auto. rewrite cos_asin by auto.
  replace (1 - Z²) with (X * X + Y * Y) by (unfold Rsqr; lra).
  destruct (Req_EM_T (X * X + Y * Y) 0) as [h|h].
  - assert (X = 0) by nra. assert (Y = 0) by nra. rewrite h, sqrt_0. repeat split; lra.
  - assert (0 < sqrt (X * X + Y * Y)) by (apply sqrt_lt_R0; nra).
    rewrite cos_atan2, sin_atan2 by (destruct (Req_EM_T X 0); [right; nra | auto]). repeat split; field; lra.
Qed.

Lemma project_value : forall p k q, pr_scale p = Some k ->
  let w := turned (pr_rotate p) in let u := enu q in
  dot u (v_centre w) <> -1 ->
  project p q = Some (fst (pr_translate p) + k * (sqrt (2 / (1 + dot u (v_centre w))) * dot u (v_right w)),
                      snd (pr_translate p) - k * (sqrt (2 / (1 + dot u (v_centre w))) * dot u (v_up w))).
Proof.
  intros p k q HK w u NA. unfold project. rewrite HK. cbn [obind].
  destruct (rotate_components (pr_rotate p) q) as (A & B & C).
  destruct (d3_rotate (rad3 (pr_rotate p)) (radians (fst q), radians (snd q))) as [x y].
  cbn [fst snd] in A, B, C. unfold equal_area_raw. fold w u in A, B, C. rewrite A, B, C.
  destruct (Req_EM_T (1 + dot u (v_centre w)) 0); [lra|]. reflexivity.
Qed.

Lemma chord : forall u c, unit3 u -> unit3 c -> nrm2 (vsub u c) = 2 - 2 * dot u c.
Proof. intros [a b c] [d e f] U C. unfold unit3, nrm2, dot, vsub in *. cbn [vx vy vz] in *. nra. Qed.

Lemma dot_bound : forall u c, unit3 u -> unit3 c -> -1 <= dot u c <= 1.
Proof.
  intros [a b c] [d e f] U C. unfold unit3, nrm2, dot in *. cbn [vx vy vz] in *.
  pose proof (Rle_0_sqr (a - d)). pose proof (Rle_0_sqr (b - e)). pose proof (Rle_0_sqr (c - f)).
  pose proof (Rle_0_sqr (a + d)). pose proof (Rle_0_sqr (b + e)). pose proof (Rle_0_sqr (c + f)). unfold Rsqr in *. nra.
Qed.

Lemma dot_m1 : forall u c, unit3 u -> unit3 c -> dot u c = -1 -> u = vneg c.
Proof.
  intros [a b d] [e f g] U C E. unfold unit3, nrm2, dot in *. cbn [vx vy vz] in *.
  assert (Z : (a + e) * (a + e) + (b + f) * (b + f) + (d + g) * (d + g) = 0) by lra.
  pose proof (Rle_0_sqr (a + e)) as Q1. pose proof (Rle_0_sqr (b + f)) as Q2. pose proof (Rle_0_sqr (d + g)) as Q3. unfold Rsqr in *.
  assert (a + e = 0) by (apply Rsqr_0_uniq; unfold Rsqr; lra).
  assert (b + f = 0) by (apply Rsqr_0_uniq; unfold Rsqr; lra).
  assert (d + g = 0) by (apply Rsqr_0_uniq; unfold Rsqr; lra).
  apply vec3_eq; cbn [vneg vx vy vz]; lra.
Qed.
Lemma nrm2_sub0 : forall u c, nrm2 (vsub u c) = 0 -> u = c.
Proof.
  intros [a b d] [e f g] Z. unfold nrm2, dot, vsub in Z. cbn [vx vy vz] in Z.
  pose proof (Rle_0_sqr (a - e)) as Q1. pose proof (Rle_0_sqr (b - f)) as Q2. pose proof (Rle_0_sqr (d - g)) as Q3. unfold Rsqr in *.
  assert (a - e = 0) by (apply Rsqr_0_uniq; unfold Rsqr; lra).
  assert (b - f = 0) by (apply Rsqr_0_uniq; unfold Rsqr; lra).
  assert (d - g = 0) by (apply Rsqr_0_uniq; unfold Rsqr; lra).
  apply vec3_eq; cbn [vx vy vz]; lra.
Qed.

(** * C167: the projection *)
(** Every point but the one opposite to the centre is drawn where Lambert's projection, seen
    from outside, puts its direction. *)
Theorem C167_lambert : forall p k q, pr_scale p = Some k -> 0 <= k ->
  let w := turned (pr_rotate p) in
  proper w /\
  (enu q <> vneg (v_centre w) -> exists s, project p q = Some s /\ lambert w (pr_translate p) k (enu q) s).
Proof.
  intros p k q HK K w. assert (W : proper w) by apply turned_proper. split; [exact W|]. intros NA.
  assert (U := enu_unit q). assert (C : unit3 (v_centre w)) by (unfold unit3, nrm2; apply W).
  assert (N1 : dot (enu q) (v_centre w) <> -1).
  { intros E. apply NA. now apply dot_m1. }
  pose proof (dot_bound _ _ U C) as B.
  eexists. split; [apply (project_value p k q HK N1)|].
  fold w. set (m := sqrt (2 / (1 + dot (enu q) (v_centre w)))).
  assert (M2 : m * m * (1 + dot (enu q) (v_centre w)) = 2).
  { unfold m. rewrite sqrt_sqrt; [field; lra|]. apply Rlt_le, Rdiv_lt_0_compat; lra. }
  split.
  - rewrite (chord _ _ U C). unfold dist2. cbn [fst snd].
    pose proof (proper_parseval w (enu q) W U) as P.
    set (X := dot (enu q) (v_centre w)) in *. set (Y := dot (enu q) (v_right w)) in *. set (Z := dot (enu q) (v_up w)) in *.
    replace (_ + _) with (k * k * (m * m * (Y * Y + Z * Z))) by ring.
    replace (Y * Y + Z * Z) with ((1 + X) * (1 - X)) by lra. rewrite <- (Rmult_assoc (m * m)), M2. ring.
  - exists (k * m). split; [apply Rmult_le_pos; [exact K|apply sqrt_pos]|]. cbn [fst snd]. split; ring.
Qed.

(** A drawn place belongs to one direction only. *)
Theorem C167_injective : forall p k q q' s, pr_scale p = Some k -> 0 < k ->
  let c := v_centre (turned (pr_rotate p)) in
  enu q <> vneg c -> enu q' <> vneg c ->
  project p q = Some s -> project p q' = Some s -> enu q = enu q'.
Proof.
  intros p k q q' s HK K c N N' P P'. set (w := turned (pr_rotate p)) in *.
  assert (W : proper w) by apply turned_proper.
  destruct (C167_lambert p k q HK ltac:(lra)) as [_ L]. destruct (C167_lambert p k q' HK ltac:(lra)) as [_ L'].
  fold w c in L, L'. destruct (L N) as (s1 & E1 & D1 & _). destruct (L' N') as (s2 & E2 & D2 & _).
  assert (s1 = s) by congruence. assert (s2 = s) by congruence. subst s1 s2. clear L L' E1 E2.
  assert (U := enu_unit q). assert (U' := enu_unit q'). assert (C : unit3 c) by (unfold unit3, nrm2; apply W).
  fold c in D1, D2. rewrite chord in D1, D2 by auto.
  assert (X : dot (enu q) c = dot (enu q') c).
  { assert (E : k * k * (2 - 2 * dot (enu q) c) = k * k * (2 - 2 * dot (enu q') c)) by congruence.
    apply Rmult_eq_reg_l in E; [lra|nra]. }
  assert (N1 : forall r, enu r <> vneg c -> dot (enu r) c <> -1).
  { intros r NR E. apply NR. apply dot_m1; auto using enu_unit. }
  pose proof (project_value p k q HK (N1 q N)) as V. pose proof (project_value p k q' HK (N1 q' N')) as V'.
  fold w c in V, V'. rewrite P in V. rewrite P' in V'. rewrite V in V'. rewrite X in V'.
  pose proof (dot_bound _ _ U' C) as B. pose proof (N1 q' N') as NE.
  set (m := sqrt (2 / (1 + dot (enu q') c))) in *.
  assert (M : 0 < m) by (apply sqrt_lt_R0, Rdiv_lt_0_compat; lra).
  assert (Y : dot (enu q) (v_right w) = dot (enu q') (v_right w)).
  { assert (E : k * (m * dot (enu q) (v_right w)) = k * (m * dot (enu q') (v_right w))) by (injection V'; lra).
    apply Rmult_eq_reg_l in E; [|lra]. apply Rmult_eq_reg_l in E; [exact E|lra]. }
  assert (Z : dot (enu q) (v_up w) = dot (enu q') (v_up w)).
  { assert (E : k * (m * dot (enu q) (v_up w)) = k * (m * dot (enu q') (v_up w))) by (injection V'; lra).
    apply Rmult_eq_reg_l in E; [|lra]. apply Rmult_eq_reg_l in E; [exact E|lra]. }
  (* three equal components: the cosine of the angle between the two is 1 *)
  assert (T : nrm2 (vsub (enu q) (enu q')) = 0).
  { destruct W as (WC & WE & WN & WEN & WX).
    assert (G : forall d e n : vec3, dot e e = 1 -> dot n n = 1 -> dot e n = 0 ->
       nrm2 d = dot d (cross e n) * dot d (cross e n) + dot d e * dot d e + dot d n * dot d n).
    { intros [x y z] [a b f] [g h i] He Hn Hen. unfold nrm2, dot, cross in *. cbn [vx vy vz] in *.
      assert (G : (x * (b * i - f * h) + y * (f * g - a * i) + z * (a * h - b * g)) * (x * (b * i - f * h) + y * (f * g - a * i) + z * (a * h - b * g))
        = (x*x+y*y+z*z) * ((a*a+b*b+f*f) * (g*g+h*h+i*i) - (a*g+b*h+f*i) * (a*g+b*h+f*i))
          - (x*a+y*b+z*f) * ((x*a+y*b+z*f) * (g*g+h*h+i*i) - (a*g+b*h+f*i) * (x*g+y*h+z*i))
          + (x*g+y*h+z*i) * ((x*a+y*b+z*f) * (a*g+b*h+f*i) - (a*a+b*b+f*f) * (x*g+y*h+z*i))) by ring.
      rewrite G, He, Hn, Hen. ring. }
    rewrite (G _ (v_right w) (v_up w) WE WN WEN), WX.
    assert (D : forall a b d, dot (vsub a b) d = dot a d - dot b d) by (intros; unfold dot, vsub; cbn [vx vy vz]; ring).
    rewrite !D. fold c. rewrite X, Y, Z. ring. }
  now apply nrm2_sub0.
Qed.

(** Everything up to the angle [th] from the centre is drawn within a disc of the area of
    that part of a sphere of radius [k]. *)
Theorem C167_area : forall p k q th s, pr_scale p = Some k -> 0 < k -> 0 <= th < PI ->
  let c := v_centre (turned (pr_rotate p)) in
  enu q <> vneg c -> project p q = Some s ->
  (cos th <= dot (enu q) c <-> PI * dist2 s (pr_translate p) <= 2 * PI * (k * k) * (1 - cos th)).
Proof.
  intros p k q th s HK K T c N P. destruct (C167_lambert p k q HK ltac:(lra)) as [W L]. fold c in L.
  destruct (L N) as (s' & E & D & _). assert (s' = s) by congruence. subst s'.
  assert (C : unit3 c) by (unfold unit3, nrm2; apply W). fold c in D. rewrite D, chord by (auto using enu_unit).
  pose proof PI_RGT_0. assert (0 < PI * (k * k)) by (apply Rmult_lt_0_compat; nra).
  replace (PI * (k * k * (2 - 2 * dot (enu q) c))) with (PI * (k * k) * (2 * (1 - dot (enu q) c))) by ring.
  replace (2 * PI * (k * k) * (1 - cos th)) with (PI * (k * k) * (2 * (1 - cos th))) by ring.
  split; intros H1.
  - apply Rmult_le_compat_l; lra.
  - apply Rmult_le_reg_l in H1; lra.
Qed.

(** The point opposite to the centre has no place on the net. *)
Theorem C167_antipode : forall p k q, pr_scale p = Some k ->
  enu q = vneg (v_centre (turned (pr_rotate p))) ->
  project p q = None.
Proof.
  intros p k q HK E. unfold project. rewrite HK. cbn [obind].
  destruct (rotate_components (pr_rotate p) q) as (A & B & C). rewrite E in A.
  destruct (d3_rotate (rad3 (pr_rotate p)) (radians (fst q), radians (snd q))) as [x y]. cbn [fst snd] in A.
  unfold equal_area_raw. rewrite A.
  assert (X : dot (vneg (v_centre (turned (pr_rotate p)))) (v_centre (turned (pr_rotate p))) = -1).
  { destruct (turned_proper (pr_rotate p)) as (X & _). unfold dot, vneg in *. cbn [vx vy vz]. nra. }
  rewrite X. destruct (Req_EM_T (1 + -1) 0); [reflexivity|lra].
Qed.

Lemma enu_drawn : forall q, enu q = drawn true false true q.
Proof. intros [lon lat]. unfold enu, drawn, plane_dir. cbn [fst snd]. apply vec3_eq; cbn [vx vy vz]; ring. Qed.

(** From a vector in space (x east, y north, z up) to the screen: the longitude and latitude
    that the drawing functions give it by default are drawn at the place of its direction. *)
Theorem C167_vector : forall p k v, pr_scale p = Some k -> 0 <= k -> v <> vzero ->
  let w := turned (pr_rotate p) in let u := vscale (/ norm v) v in
  exists lon lat, js_cart2sph true false true v = (lon, Some lat) /\
    (u <> vneg (v_centre w) -> exists s, project p (lon, lat) = Some s /\ lambert w (pr_translate p) k u s).
Proof.
  intros p k v HK K NZ w u. destruct (to_sph_dir (mkOpts 0 true false true) v NZ) as (lon & lat & E & D).
  exists lon, lat. split; [exact E|]. intros NA. cbn [o_degrees o_traditional o_upper] in D. rewrite <- enu_drawn in D.
  destruct (C167_lambert p k (lon, lat) HK K) as [_ L]. unfold u in *. rewrite <- D in *. exact (L NA).
Qed.
(** Once centred on the south, the east is to the right of the centre and Up above it. *)
Example C167_ex : let p := mkProj (Some 90) (Some 100) (150, 150) (0, 0, 0) in
  project p (0, 0) = Some (150, 150) /\ project p (90, 0) = Some (150 + 100 * sqrt 2, 150) /\
  project p (0, 90) = Some (150, 150 - 100 * sqrt 2).
Proof.
  intros p. assert (T : turned (0, 0, 0) = mkView (V3 0 (-1) 0) (V3 1 0 0) (V3 0 0 1)).
  { unfold turned. destruct (turned_base 0 0) as (E1 & E2 & E3). rewrite E1, E2, E3, rad_0, cos_0, sin_0.
    f_equal; apply vec3_eq; unfold vsub, vadd, vscale; cbn [vx vy vz]; ring. }
  assert (U : enu (0, 0) = V3 0 (-1) 0 /\ enu (90, 0) = V3 1 0 0 /\ enu (0, 90) = V3 0 0 1).
  { unfold enu. cbn [fst snd]. rewrite rad_0, rad_90, cos_0, sin_0, cos_PI2, sin_PI2. repeat split; apply vec3_eq; cbn [vx vy vz]; ring. }
  destruct U as (U1 & U2 & U3).
  split; [|split]; (rewrite (project_value p 100) by (cbn [pr_scale p pr_rotate]; rewrite ?T, ?U1, ?U2, ?U3; unfold dot; cbn [v_centre vx vy vz]; (reflexivity || lra)));
    cbn [p pr_rotate pr_translate fst snd]; rewrite T, ?U1, ?U2, ?U3; unfold dot; cbn [v_centre v_right v_up vx vy vz]; do 2 f_equal.
  - ring.
  - ring.
  - replace (2 / (1 + (1 * 0 + 0 * -1 + 0 * 0))) with 2 by field. ring.
  - ring.
  - ring.
  - replace (2 / (1 + (0 * 0 + 0 * -1 + 1 * 0))) with 2 by field. ring.
Qed.

(** * C168: what remains of a chain of calls once mounted *)
Definition size_of (c : call) := match c with Size n => Some n | _ => None end.
Definition margin_of (c : call) := match c with Margin m => Some m | _ => None end.
Definition angle_of (c : call) := match c with ClipAngle a => Some a | _ => None end.
Definition rotation_of (c : call) :=
  match c with Center r | Rotate r => Some r | CenterVertical => Some (0, 90, 0) | ClipAngle _ => Some (0, -90, 0) | _ => None end.
Definition clip_of (c : call) := match c with Clip b => Some b | _ => None end.
Definition rectangular (c : call) : bool := match c with Rectangular _ _ => true | _ => false end.

Lemma set_scale_fields : forall n s, let s' := setScale n s in
  n_margin s' = n_margin s /\ n_size s' = match n with Some n => n | None => n_size s end /\ n_clipAngle s' = n_clipAngle s /\
  n_shouldClip s' = n_shouldClip s /\ n_rect s' = n_rect s /\ pr_rotate (n_proj s') = pr_rotate (n_proj s).
Proof.
  intros n s s'. unfold s', setScale. cbn [n_margin n_size n_clipAngle n_shouldClip n_rect n_proj]. repeat (split; [reflexivity|]).
  destruct (Rlt_dec (n_clipAngle s) 89); [destruct (n_shouldClip s)|]; reflexivity.
Qed.
Lemma run_fields : forall cs s, let s' := net_run s cs in
  n_size s' = last_of size_of cs (n_size s) /\ n_margin s' = last_of margin_of cs (n_margin s) /\
  n_clipAngle s' = last_of angle_of cs (n_clipAngle s) /\ pr_rotate (n_proj s') = last_of rotation_of cs (pr_rotate (n_proj s)) /\
  n_shouldClip s' = last_of clip_of cs (n_shouldClip s) /\
  (forallb (fun c => negb (rectangular c)) cs = true -> n_rect s' = n_rect s).
Proof.
  unfold net_run. induction cs as [|c cs IH]; intros s; cbn [fold_left last_of forallb].
  { repeat (split; [reflexivity|]). reflexivity. }
  assert (F : let s1 := net_step s c in
    n_size s1 = (match size_of c with Some x => x | None => n_size s end) /\ n_margin s1 = (match margin_of c with Some x => x | None => n_margin s end) /\
    n_clipAngle s1 = (match angle_of c with Some x => x | None => n_clipAngle s end) /\
    pr_rotate (n_proj s1) = (match rotation_of c with Some x => x | None => pr_rotate (n_proj s) end) /\
    n_shouldClip s1 = (match clip_of c with Some x => x | None => n_shouldClip s end) /\
    (rectangular c = false -> n_rect s1 = n_rect s)).
  { destruct c; cbn [size_of margin_of angle_of rotation_of clip_of rectangular net_step].
    1, 3, 4, 6, 7, 8, 9: do 5 (split; [reflexivity|]); (reflexivity || discriminate).
    - destruct (set_scale_fields (Some n) s) as (A & B & C & D & E & G). do 5 (split; [assumption|]). intros _. exact E.
    - match goal with |- context [setScale None ?x] => destruct (set_scale_fields None x) as (A & B & C & D & E & G) end.
      do 5 (split; [assumption|]). intros _. exact E.
    - destruct (set_scale_fields None s) as (A & B & C & D & E & G). set (s1 := setScale None s) in *.
      cbn [n_size n_margin n_clipAngle n_shouldClip n_rect n_proj].
      do 3 (split; [assumption|]). split; [|split; [assumption|intros _; exact E]].
      destruct (n_rect s1) as [[w h]|]; exact G.
    - destruct (n_mounted s); do 5 (split; [reflexivity|]); reflexivity. }
  destruct F as (F1 & F2 & F3 & F4 & F5 & F6). destruct (IH (net_step s c)) as (G1 & G2 & G3 & G4 & G5 & G6).
  rewrite G1, G2, G3, G4, G5, F1, F2, F3, F4, F5. do 5 (split; [reflexivity|]).
  intros H. apply andb_true_iff in H. destruct H as [H1 H2]. rewrite (G6 H2). apply F6. now apply negb_true_iff.
Qed.

(** The projection of the mounted net is settled by the last size, margin, clip angle and
    rotation asked for, in whatever order; what was given to scale() is lost. *)
Theorem C168_mounted : forall cs, forallb (fun c => negb (rectangular c)) cs = true ->
  let p := n_proj (net_run net0 (cs ++ [Mount])) in
  let sz := last_of size_of cs 300 in let m := last_of margin_of cs 20 in let a := last_of angle_of cs 90 in
  pr_translate p = (sz / 2, sz / 2) /\ pr_rotate p = last_of rotation_of cs (0, 0, 0) /\
  (a = 90 -> pr_scale p = Some (2 / 5 * sz - m)) /\
  (89 <= a -> a <> 90 -> pr_scale p = Some (sz / 2 - m)) /\
  (a < 89 -> sin (radians a) <> 0 -> pr_scale p = Some ((sz / 2 - m) / sin (radians a))) /\
  (a < 89 -> sin (radians a) = 0 -> pr_scale p = None).
Proof.
  intros cs H p sz m a. unfold p, net_run. rewrite fold_left_app. cbn [fold_left].
  destruct (run_fields cs net0) as (F1 & F2 & F3 & F4 & F5 & F6). fold (net_run net0 cs). specialize (F6 H).
  change (n_size net0) with 300 in F1. change (n_margin net0) with 20 in F2. change (n_clipAngle net0) with 90 in F3.
  change (pr_rotate (n_proj net0)) with (0, 0, 0) in F4. change (n_rect net0) with (@None (R * R)) in F6.
  set (s := net_run net0 cs) in *. unfold net_step. destruct (set_scale_fields None s) as (_ & _ & _ & _ & E & G).
  rewrite E, F6. cbn [n_proj]. unfold setScale. cbn [n_proj]. rewrite F3, F2, F1. fold sz m a.
  replace (PI / 180 * a) with (radians a) by (unfold radians; field).
  destruct (Rlt_dec a 89) as [L|L].
  - destruct (Req_EM_T a 90); [lra|]. cbn [set_translate pr_translate pr_rotate pr_scale set_scale].
    split; [reflexivity|]. split; [destruct (n_shouldClip s); exact F4|]. split; [lra|]. split; [lra|].
    unfold fdiv. destruct (Req_EM_T (sin (radians a)) 0); split; intros; (reflexivity || contradiction).
  - cbn [set_translate pr_translate pr_rotate pr_scale set_scale]. split; [reflexivity|]. split; [exact F4|].
    split; [|split; [|split; intros; lra]].
    + intros E90. destruct (Req_EM_T a 90); [|contradiction]. f_equal. field.
    + intros _ N90. destruct (Req_EM_T a 90); [contradiction|reflexivity].
Qed.

(** A rectangular net is clipped at the horizon of its centre and centred in its frame. *)
Theorem C168_rectangular : forall cs w h cs', forallb (fun c => negb (rectangular c)) cs' = true ->
  let p := n_proj (net_run net0 (cs ++ Rectangular w h :: cs' ++ [Mount])) in
  let before := last_of size_of cs 300 - 2 * last_of margin_of cs 20 in
  let m := last_of margin_of cs' (last_of margin_of cs 20) in
  let get x := match x with Some x => x | None => before end in
  pr_clip p = Some 90 /\ pr_translate p = (get w / 2 + m, get h / 2 + m).
Proof.
  intros cs w h cs' H p before m get. unfold p, net_run. rewrite fold_left_app. cbn [fold_left]. rewrite fold_left_app. cbn [fold_left].
  fold (net_run net0 cs). destruct (run_fields cs net0) as (A1 & A2 & _).
  change (n_size net0) with 300 in A1. change (n_margin net0) with 20 in A2.
  set (s := net_step (net_run net0 cs) (Rectangular w h)). fold (net_run s cs').
  destruct (run_fields cs' s) as (F1 & F2 & F3 & F4 & F5 & F6). specialize (F6 H).
  set (s' := net_run s cs') in *. unfold net_step. destruct (set_scale_fields None s') as (M & _ & _ & _ & E & G).
  assert (S1 : n_rect s = Some (get w, get h)).
  { unfold s, net_step, get, before. cbn [n_rect]. rewrite A1, A2. reflexivity. }
  assert (S2 : n_margin s = last_of margin_of cs 20) by exact A2.
  rewrite E, F6, S1. cbn [n_proj]. rewrite M, F2, S2. fold m.
  unfold set_translate, set_clip. cbn [pr_clip pr_translate]. destruct (Req_EM_T 90 0); [lra|].
  split; reflexivity.
Qed.

(** Below 89 degrees the net is clipped at the angle asked for, unless clipping is off. *)
Theorem C168_clip : forall cs, forallb (fun c => negb (rectangular c)) cs = true ->
  let a := last_of angle_of cs 90 in
  a < 89 -> a <> 0 -> last_of clip_of cs true = true -> pr_clip (n_proj (net_run net0 (cs ++ [Mount]))) = Some a.
Proof.
  intros cs H a L Z C. unfold net_run. rewrite fold_left_app. cbn [fold_left]. fold (net_run net0 cs).
  destruct (run_fields cs net0) as (F1 & F2 & F3 & F4 & F5 & F6). specialize (F6 H).
  change (n_clipAngle net0) with 90 in F3. change (n_rect net0) with (@None (R * R)) in F6. change (n_shouldClip net0) with true in F5.
  set (s := net_run net0 cs) in *. unfold net_step. destruct (set_scale_fields None s) as (_ & _ & _ & _ & E & _).
  rewrite E, F6. cbn [n_proj]. unfold setScale. cbn [n_proj]. rewrite F3, F5, C. fold a.
  destruct (Rlt_dec a 89); [|lra]. unfold set_translate, set_scale, set_clip. cbn [pr_clip].
  destruct (Req_EM_T a 0); [contradiction|reflexivity].
Qed.
(** A clip angle of 0 removes the clipping. *)
Theorem C168_zero : forall cs, forallb (fun c => negb (rectangular c)) cs = true ->
  last_of angle_of cs 90 = 0 -> last_of clip_of cs true = true -> pr_clip (n_proj (net_run net0 (cs ++ [Mount]))) = None.
Proof.
  intros cs H L C. unfold net_run. rewrite fold_left_app. cbn [fold_left]. fold (net_run net0 cs).
  destruct (run_fields cs net0) as (F1 & F2 & F3 & F4 & F5 & F6). specialize (F6 H).
  change (n_clipAngle net0) with 90 in F3. change (n_rect net0) with (@None (R * R)) in F6. change (n_shouldClip net0) with true in F5.
  set (s := net_run net0 cs) in *. unfold net_step. destruct (set_scale_fields None s) as (_ & _ & _ & _ & E & _).
  rewrite E, F6. cbn [n_proj]. unfold setScale. cbn [n_proj]. rewrite F3, F5, C, L.
  destruct (Rlt_dec 0 89); [|lra]. unfold set_translate, set_scale, set_clip. cbn [pr_clip].
  destruct (Req_EM_T 0 0); [reflexivity|lra].
Qed.
(** Turning clipping off never makes the projection draw the far side: without an angle of
    zero some circle stays. *)
Theorem C168_never_unclipped : forall cs, Forall (fun c => angle_of c <> Some 0) cs ->
  exists a, pr_clip (n_proj (net_run net0 cs)) = Some a.
Proof.
  intros cs F. unfold net_run.
  assert (G : forall cs s, Forall (fun c => angle_of c <> Some 0) cs -> n_clipAngle s <> 0 -> (exists a, pr_clip (n_proj s) = Some a) ->
     exists a, pr_clip (n_proj (fold_left net_step cs s)) = Some a).
  { clear. induction cs as [|c cs IH]; intros s F N [a A]; cbn [fold_left]; [now exists a|].
    inversion F as [|? ? F1 F2]; subst. 
    assert (S : forall n s, n_clipAngle s <> 0 -> (exists a, pr_clip (n_proj s) = Some a) -> exists a, pr_clip (n_proj (setScale n s)) = Some a).
    { clear. intros n s N [a A]. unfold setScale. cbn [n_proj]. unfold set_translate, set_scale, set_clip. cbn [pr_clip].
      destruct (Rlt_dec _ _); [|exists a; exact A]. destruct (n_shouldClip s); cbn [pr_clip]; [|exists a; exact A].
      destruct (Req_EM_T (n_clipAngle s) 0); [contradiction|]. eexists; reflexivity. }
    apply IH; [exact F2| |].
    - destruct c; cbn [net_step]; try exact N.
      + match goal with |- context [setScale None ?x] => destruct (set_scale_fields None x) as (_ & _ & C & _) end.
        rewrite C. cbn [n_clipAngle]. intros E. apply F1. cbn [angle_of]. now rewrite E.
      + destruct (n_mounted s); exact N.
    - destruct c; cbn [net_step]; try (exists a; exact A).
      + apply S; [exact N|now exists a].
      + apply S; [|exists a; exact A]. cbn [n_clipAngle]. intros E. apply F1. cbn [angle_of]. now rewrite E.
      + cbn [n_proj]. destruct (n_rect (setScale None s)) as [[w h]|].
        * unfold set_translate, set_clip. cbn [pr_clip]. destruct (Req_EM_T 90 0); [lra|]. now exists 90.
        * apply S; [exact N|now exists a].
      + destruct (n_mounted s); exists a; exact A. }
  apply G; [exact F| |]; cbn [net0 n_clipAngle n_proj pr_clip]; [lra|now exists 90].
Qed.
Lemma clip_hi : forall n s, 89 <= n_clipAngle s -> pr_clip (n_proj (setScale n s)) = pr_clip (n_proj s).
Proof. intros n s H. unfold setScale. cbn [n_proj]. destruct (Rlt_dec (n_clipAngle s) 89); [lra|]. reflexivity. Qed.
(** Going back to a clip angle of 90 leaves the projection clipped at the former angle. *)
Theorem C168_clip_refuted : exists cs, last_of angle_of cs 90 = 90 /\ last_of clip_of cs true = true /\
  pr_clip (n_proj (net_run net0 (cs ++ [Mount]))) = Some 60.
Proof.
  exists [ClipAngle 60; ClipAngle 90]. split; [reflexivity|]. split; [reflexivity|].
  set (s1 := net_step net0 (ClipAngle 60)). set (s2 := net_step s1 (ClipAngle 90)).
  change (net_run net0 ([ClipAngle 60; ClipAngle 90] ++ [Mount])) with (net_step s2 Mount).
  assert (R2 : n_rect (setScale None s2) = None) by reflexivity.
  assert (E : pr_clip (n_proj (net_step s2 Mount)) = pr_clip (n_proj (setScale None s2))) by reflexivity.
  rewrite E. rewrite clip_hi by (change (n_clipAngle s2) with 90; lra).
  unfold s2, net_step. rewrite clip_hi by (cbn [n_clipAngle]; lra). cbn [n_proj].
  change (pr_clip (set_rotate (0, -90, 0) (n_proj s1))) with (pr_clip (n_proj s1)).
  unfold s1, net_step, setScale. cbn [n_proj n_clipAngle n_shouldClip net0].
  destruct (Rlt_dec 60 89); [|lra]. unfold set_translate, set_scale, set_clip. cbn [pr_clip].
  destruct (Req_EM_T 60 0); [lra|reflexivity].
Qed.
(** The value that scale() returns is not the one it was given. *)
Theorem C168_scale_refuted : exists s k, get_scale (net_step s (Scale k)) <> k /\ pr_scale (n_proj (net_step s (Scale k))) = Some k.
Proof. exists net0, 100. cbn [net_step get_scale with_proj n_size net0 n_proj set_scale pr_scale]. split; [lra|reflexivity]. Qed.
Example C168_ex : let p := n_proj (net_run net0 [Scale 7; ClipAngle 30; Center (10, 20, 0); Margin 50; Size 400; Mount]) in
  pr_scale p = Some 300 /\ pr_translate p = (200, 200) /\ pr_rotate p = (10, 20, 0) /\ pr_clip p = Some 30.
Proof.
  set (cs := [Scale 7; ClipAngle 30; Center (10, 20, 0); Margin 50; Size 400]).
  change [Scale 7; ClipAngle 30; Center (10, 20, 0); Margin 50; Size 400; Mount] with (cs ++ [Mount])%list. intros p.
  assert (S : sin (radians 30) = 1 / 2) by (unfold radians; replace (30 * PI / 180) with (PI / 6) by field; apply sin_PI6).
  destruct (C168_mounted cs eq_refl) as (A & B & _ & _ & C & _).
  cbn [cs last_of size_of margin_of angle_of rotation_of] in A, B, C. fold p in A, B, C. rewrite S in C.
  split; [rewrite C by lra; f_equal; field|]. split; [rewrite A; f_equal; field|]. split; [exact B|].
  apply (C168_clip cs eq_refl); cbn [cs last_of angle_of clip_of]; (lra || reflexivity).
Qed.

(** * C169: the outline *)
Lemma enu_onto : forall u, unit3 u -> exists q, enu q = u.
Proof.
  intros u U. assert (N : norm u = 1) by (now apply norm_unit).
  assert (NZ : u <> vzero) by (intros ->; unfold unit3, nrm2, dot, vzero in U; cbn [vx vy vz] in U; lra).
  destruct (to_sph_dir (mkOpts 0 true false true) u NZ) as (lon & lat & _ & D). exists (lon, lat).
  cbn [o_degrees o_traditional o_upper] in D. rewrite <- enu_drawn in D. rewrite D, N.
  destruct u as [x y z]. apply vec3_eq; unfold vscale; cbn [vx vy vz]; field.
Qed.
Lemma cos_half : forall a, 1 - cos (radians a) = 2 * (sin (radians (a / 2)) * sin (radians (a / 2))).
Proof.
  intros a. replace (radians a) with (2 * radians (a / 2)) by (unfold radians; field).
  rewrite cos_2a_sin. ring.
Qed.
Lemma sin_half : forall a, sin (radians a) = 2 * sin (radians (a / 2)) * cos (radians (a / 2)).
Proof. intros a. replace (radians a) with (2 * radians (a / 2)) by (unfold radians; field). apply sin_2a. Qed.
Lemma radians_lt : forall a b, a < b -> radians a < radians b.
Proof. intros a b H. unfold radians. pose proof PI_RGT_0. apply Rmult_lt_compat_r with (r := PI / 180) in H; lra. Qed.
Lemma sin_rad_pos : forall a, 0 < a < 180 -> 0 < sin (radians a).
Proof.
  intros a [A B]. apply radians_lt in A, B. rewrite rad_0 in A. rewrite rad_180 in B. apply sin_gt_0; assumption.
Qed.
Lemma cos_rad_pos : forall a, 0 <= a < 90 -> 0 < cos (radians a).
Proof.
  intros a [A B]. apply radians_lt in B. rewrite rad_90 in B.
  assert (0 <= radians a) by (unfold radians; pose proof PI_RGT_0; apply Rmult_le_pos; [apply Rmult_le_pos; lra|lra]).
  apply cos_gt_0; lra.
Qed.

(** Radius at which the circle of the clip angle is drawn, against the radius size / 2 - margin
    that the scale is computed for: the formula is the one of an orthographic projection. *)
Theorem C169_outline : forall cs q s, forallb (fun c => negb (rectangular c)) cs = true ->
  let p := n_proj (net_run net0 (cs ++ [Mount])) in
  let sz := last_of size_of cs 300 in let m := last_of margin_of cs 20 in let a := last_of angle_of cs 90 in
  0 < a < 89 \/ a = 90 -> 0 <= sz / 2 - m -> 0 <= 2 / 5 * sz - m ->
  dot (enu q) (v_centre (turned (pr_rotate p))) = cos (radians a) -> project p q = Some s ->
  (a = 90 -> dist2 s (sz / 2, sz / 2) = 2 * ((2 / 5 * sz - m) * (2 / 5 * sz - m))) /\
  (a < 89 -> dist2 s (sz / 2, sz / 2) = (sz / 2 - m) / cos (radians (a / 2)) * ((sz / 2 - m) / cos (radians (a / 2))) /\
             (0 < sz / 2 - m -> (sz / 2 - m) * (sz / 2 - m) < dist2 s (sz / 2, sz / 2))).
Proof.
  intros cs q s H p sz m a A P1 P2 D E. destruct (C168_mounted cs H) as (T & _ & S1 & _ & S2 & _). fold p sz m a in T, S1, S2.
  assert (G : forall k, pr_scale p = Some k -> 0 <= k -> dist2 s (sz / 2, sz / 2) = k * k * (2 * (1 - cos (radians a)))).
  { intros k HK K. destruct (C167_lambert p k q HK K) as [W L]. set (c := v_centre (turned (pr_rotate p))) in *.
    assert (C : unit3 c) by (unfold unit3, nrm2; apply W).
    assert (NA : enu q <> vneg c).
    { intros EQ. rewrite EQ in D. assert (X : dot (vneg c) c = -1) by (unfold unit3, nrm2, dot, vneg in *; cbn [vx vy vz] in *; lra).
      rewrite X in D. pose proof (cos_half a) as CH. rewrite <- D in CH.
      assert (0 < a < 180) by lra. pose proof (sin_rad_pos a H0). pose proof (sc1 (radians a)) as SC. rewrite <- D in SC. nra. }
    destruct (L NA) as (s' & E' & DD & _). assert (s' = s) by congruence. subst s'. rewrite T in DD. rewrite DD. fold c.
    rewrite (chord _ _ (enu_unit q) C), D. ring. }
  split.
  - intros A90. rewrite (G _ (S1 A90) P2), A90, rad_90, cos_PI2. ring.
  - intros A89. assert (SP : 0 < sin (radians a)) by (apply sin_rad_pos; lra).
    assert (SH : 0 < sin (radians (a / 2))) by (apply sin_rad_pos; lra).
    assert (CP : 0 < cos (radians (a / 2))) by (apply cos_rad_pos; lra).
    assert (K : 0 <= (sz / 2 - m) / sin (radians a)) by (apply Rmult_le_pos; [lra|apply Rlt_le, Rinv_0_lt_compat; lra]).
    assert (V : dist2 s (sz / 2, sz / 2) = (sz / 2 - m) / cos (radians (a / 2)) * ((sz / 2 - m) / cos (radians (a / 2)))).
    { rewrite (G _ (S2 A89 ltac:(lra)) K), cos_half, (sin_half a). field. lra. }
    split; [exact V|]. intros R0. rewrite V. set (c := cos (radians (a / 2))) in *.
    assert (C1 : c < 1).
    { pose proof (sc1 (radians (a / 2))) as SC. fold c in SC. nra. }
    assert (Q : sz / 2 - m < (sz / 2 - m) / c).
    { apply Rmult_lt_reg_r with c; [lra|]. unfold Rdiv at 2. rewrite Rmult_assoc, Rinv_l by lra. nra. }
    nra.
Qed.

(** Whether the outline stays in the element, a square of side [size]. *)
Lemma circle_fits : forall p k a sz, pr_scale p = Some k -> 0 <= k -> pr_translate p = (sz / 2, sz / 2) -> 0 < a < 180 ->
  let c := v_centre (turned (pr_rotate p)) in
  (forall q s, dot (enu q) c = cos (radians a) -> project p q = Some s -> 0 <= fst s <= sz /\ 0 <= snd s <= sz) <->
  2 * k * sin (radians (a / 2)) <= sz / 2.
Proof.
  intros p k a sz HK K T A c. set (w := turned (pr_rotate p)) in *.
  assert (W : proper w) by apply turned_proper. assert (C : unit3 c) by (unfold unit3, nrm2; apply W).
  assert (SP := sin_rad_pos a A). assert (SH : 0 < sin (radians (a / 2))) by (apply sin_rad_pos; lra).
  assert (NA : forall q, dot (enu q) c = cos (radians a) -> enu q <> vneg c).
  { intros q D EQ. rewrite EQ in D. assert (X : dot (vneg c) c = -1) by (unfold unit3, nrm2, dot, vneg in *; cbn [vx vy vz] in *; lra).
    pose proof (sc1 (radians a)) as SC. rewrite <- D, X in SC. nra. }
  assert (DD : forall q s, dot (enu q) c = cos (radians a) -> project p q = Some s ->
     dist2 s (sz / 2, sz / 2) = (2 * k * sin (radians (a / 2))) * (2 * k * sin (radians (a / 2)))).
  { intros q s D E. destruct (C167_lambert p k q HK K) as [_ L]. fold w c in L. destruct (L (NA q D)) as (s' & E' & D' & _).
    assert (s' = s) by congruence. subst s'. rewrite T in D'. rewrite D'. fold c. rewrite (chord _ _ (enu_unit q) C), D.
    replace (2 - 2 * cos (radians a)) with (2 * (1 - cos (radians a))) by ring. rewrite cos_half. ring. }
  split.
  - intros F. set (u := vadd (vscale (cos (radians a)) c) (vscale (sin (radians a)) (v_right w))).
    destruct W as (WC & WE & WN & WEN & WX). fold c in WC, WX.
    assert (CE : dot c (v_right w) = 0) by (rewrite <- WX; unfold dot, cross; cbn [vx vy vz]; ring).
    assert (CN : dot c (v_up w) = 0) by (rewrite <- WX; unfold dot, cross; cbn [vx vy vz]; ring).
    assert (EC : dot (v_right w) c = 0) by (rewrite <- CE; unfold dot; ring).
    assert (LD : forall x y v v' z, dot (vadd (vscale x v) (vscale y v')) z = x * dot v z + y * dot v' z).
    { intros. unfold dot, vadd, vscale. cbn [vx vy vz]. ring. }
    assert (U : unit3 u).
    { unfold unit3, nrm2. unfold u at 1. rewrite LD.
      assert (D1 : dot c u = cos (radians a)).
      { replace (dot c u) with (dot u c) by (unfold dot; ring). unfold u. rewrite LD, WC, EC. ring. }
      assert (D2 : dot (v_right w) u = sin (radians a)).
      { replace (dot (v_right w) u) with (dot u (v_right w)) by (unfold dot; ring). unfold u. rewrite LD, CE, WE. ring. }
      rewrite D1, D2. pose proof (sc1 (radians a)). lra. }
    destruct (enu_onto u U) as [q Q].
    assert (D : dot (enu q) c = cos (radians a)) by (rewrite Q; unfold u; rewrite LD, WC, EC; ring).
    destruct (C167_lambert p k q HK K) as [_ L]. fold w c in L. destruct (L (NA q D)) as (s & E & D' & mm & M0 & M1 & M2).
    destruct (F q s D E) as [[_ F1] _]. pose proof (DD q s D E) as DQ.
    rewrite Q in M1, M2. unfold u in M1, M2. rewrite LD in M1, M2. rewrite CE, WE in M1. rewrite CN, WEN in M2.
    rewrite T in M1, M2. cbn [fst snd] in M1, M2. unfold dist2 in DQ. cbn [fst snd] in DQ.
    assert (P : 0 <= 2 * k * sin (radians (a / 2))) by (apply Rmult_le_pos; lra).
    assert (X0 : 0 <= fst s - sz / 2) by (rewrite M1; apply Rmult_le_pos; lra).
    assert (XR : (fst s - sz / 2) * (fst s - sz / 2) = (2 * k * sin (radians (a / 2))) * (2 * k * sin (radians (a / 2)))).
    { rewrite <- DQ. replace (snd s - sz / 2) with (- (sz / 2 - snd s)) by ring. rewrite M2. ring. }
    apply Rsqr_inj in XR; [lra|assumption|assumption].
  - intros F q s D E. pose proof (DD q s D E) as DQ. unfold dist2 in DQ. cbn [fst snd] in DQ.
    assert (P : 0 <= 2 * k * sin (radians (a / 2))) by (apply Rmult_le_pos; lra).
    set (r := 2 * k * sin (radians (a / 2))) in *.
    assert (B : forall x y, x * x + y * y = r * r -> - r <= x <= r).
    { intros x y XY. pose proof (Rle_0_sqr y) as Y0. unfold Rsqr in Y0. split; nra. }
    pose proof (B _ _ DQ) as B1. rewrite Rplus_comm in DQ. pose proof (B _ _ DQ) as B2. lra.
Qed.
Theorem C169_fits : forall cs, forallb (fun c => negb (rectangular c)) cs = true ->
  let p := n_proj (net_run net0 (cs ++ [Mount])) in
  let sz := last_of size_of cs 300 in let m := last_of margin_of cs 20 in let a := last_of angle_of cs 90 in
  let inside := forall q s, dot (enu q) (v_centre (turned (pr_rotate p))) = cos (radians a) -> project p q = Some s ->
                  0 <= fst s <= sz /\ 0 <= snd s <= sz in
  (a = 90 -> 0 <= 2 / 5 * sz - m -> (inside <-> sqrt 2 * (2 / 5 * sz - m) <= sz / 2)) /\
  (0 < a < 89 -> 0 <= sz / 2 - m -> (inside <-> (sz / 2 - m) / cos (radians (a / 2)) <= sz / 2)).
Proof.
  intros cs H p sz m a inside. destruct (C168_mounted cs H) as (T & _ & S1 & _ & S2 & _). fold p sz m a in T, S1, S2.
  split.
  - intros A90 K. pose proof (circle_fits p _ a sz (S1 A90) K T ltac:(lra)) as F. cbv zeta in F. unfold inside. rewrite F.
    replace (2 * (2 / 5 * sz - m) * sin (radians (a / 2))) with (sqrt 2 * (2 / 5 * sz - m)); [reflexivity|].
    rewrite A90. replace (radians (90 / 2)) with (PI / 4) by (unfold radians; field). rewrite sin_PI4.
    assert (Q : sqrt 2 * sqrt 2 = 2) by (apply sqrt_sqrt; lra). assert (0 < sqrt 2) by (apply sqrt_lt_R0; lra).
    replace (1 / sqrt 2) with (sqrt 2 / 2); [field|]. field_simplify_eq; [|lra]. replace (sqrt 2 ^ 2) with (sqrt 2 * sqrt 2) by ring. exact Q.
  - intros A89 K. assert (SP : 0 < sin (radians a)) by (apply sin_rad_pos; lra).
    assert (K' : 0 <= (sz / 2 - m) / sin (radians a)) by (apply Rmult_le_pos; [lra|apply Rlt_le, Rinv_0_lt_compat; lra]).
    pose proof (circle_fits p _ a sz (S2 ltac:(lra) ltac:(lra)) K' T ltac:(lra)) as F. cbv zeta in F. unfold inside. rewrite F.
    assert (SH : 0 < sin (radians (a / 2))) by (apply sin_rad_pos; lra).
    assert (CP : 0 < cos (radians (a / 2))) by (apply cos_rad_pos; lra).
    replace (2 * ((sz / 2 - m) / sin (radians a)) * sin (radians (a / 2))) with ((sz / 2 - m) / cos (radians (a / 2))); [reflexivity|].
    rewrite (sin_half a). field. lra.
Qed.
(** With the default size and margin and a clip angle of 80 degrees part of the outline is
    outside the element, and the label "E" is inside the outline. *)
Lemma cos_40 : 0 < cos (radians 40) < 13 / 15.
Proof.
  split; [apply cos_rad_pos; lra|]. apply Rlt_trans with (cos (PI / 6)).
  - pose proof PI_RGT_0. apply cos_decreasing_1; unfold radians; lra.
  - rewrite cos_PI6. assert (Q : sqrt 3 < 26 / 15); [|lra]. apply Rsqr_incrst_0; [|apply sqrt_pos|lra].
    rewrite Rsqr_sqrt by lra. unfold Rsqr. lra.
Qed.
Theorem C169_fits_refuted : exists cs, let n := net_run net0 (cs ++ [Mount]) in let p := n_proj n in
  n_size n = 300 /\ n_margin n = 20 /\
  (exists q s, dot (enu q) (v_centre (turned (pr_rotate p))) = cos (radians (n_clipAngle n)) /\ project p q = Some s /\
     ~ (0 <= fst s <= 300 /\ 0 <= snd s <= 300)) /\
  (forall q s, dot (enu q) (v_centre (turned (pr_rotate p))) = cos (radians (n_clipAngle n)) -> project p q = Some s ->
     dist2 (compass_label 2 n 1) (150, 150) < dist2 s (150, 150)).
Proof.
  exists [ClipAngle 80]. intros n p.
  assert (A1 : n_size n = 300) by reflexivity. assert (A2 : n_margin n = 20) by reflexivity. assert (A3 : n_clipAngle n = 80) by reflexivity.
  rewrite A3. split; [exact A1|]. split; [exact A2|]. pose proof cos_40 as C40. split.
  - pose proof (C169_fits [ClipAngle 80] eq_refl) as [_ F]. cbn [last_of size_of margin_of angle_of] in F.
    specialize (F ltac:(lra) ltac:(lra)). replace (80 / 2) with 40 in F by field.
    assert (NF : ~ (300 / 2 - 20) / cos (radians 40) <= 300 / 2).
    { intros L. apply Rmult_le_compat_r with (r := cos (radians 40)) in L; [|lra].
      unfold Rdiv at 1 in L. rewrite Rmult_assoc, Rinv_l in L by lra. lra. }
    rewrite <- F in NF. fold n p in NF.
    apply Classical_Pred_Type.not_all_ex_not in NF. destruct NF as [q NF]. apply Classical_Pred_Type.not_all_ex_not in NF. destruct NF as [s NF].
    exists q, s. apply Classical_Prop.imply_to_and in NF. destruct NF as [D NF]. apply Classical_Prop.imply_to_and in NF. destruct NF as [E NF].
    split; [exact D|]. split; [exact E|exact NF].
  - intros q s D E. destruct (C169_outline [ClipAngle 80] q s eq_refl) as [_ O];
      cbn [last_of size_of margin_of angle_of]; try lra; try assumption.
    cbn [last_of size_of margin_of angle_of] in O. destruct (O ltac:(lra)) as [V _]. replace (300 / 2) with 150 in V by field.
    rewrite V. replace (80 / 2) with 40 by field. unfold compass_label. rewrite A1, A2. cbn [nth Nat.eqb].
    replace ((90 - 90) * PI / 180) with 0 by field. rewrite cos_0, sin_0. unfold dist2. cbn [fst snd].
    assert (R : 150 < (150 - 20) / cos (radians 40)).
    { apply Rmult_lt_reg_r with (cos (radians 40)); [lra|]. unfold Rdiv. rewrite Rmult_assoc, Rinv_l by lra. lra. }
    nra.
Qed.
(** The default net fits. *)
Example C169_ex : forall q s, let p := n_proj (net_run net0 [Mount]) in
  dot (enu q) (v_centre (turned (pr_rotate p))) = cos (radians 90) -> project p q = Some s -> 0 <= fst s <= 300 /\ 0 <= snd s <= 300.
Proof.
  destruct (C169_fits [] eq_refl) as [F _]. cbn [last_of] in F. apply F; [reflexivity|lra|].
  assert (Q : sqrt 2 <= 3 / 2); [|lra]. apply Rsqr_incr_0; [|apply sqrt_pos|lra]. rewrite Rsqr_sqrt by lra. unfold Rsqr. lra.
Qed.

Print Assumptions C167_lambert.
Print Assumptions C167_injective.
Print Assumptions C167_area.
Print Assumptions C167_antipode.
Print Assumptions C167_vector.
Print Assumptions C168_mounted.
Print Assumptions C168_rectangular.
Print Assumptions C168_clip.
Print Assumptions C168_zero.
Print Assumptions C168_never_unclipped.
Print Assumptions C168_clip_refuted.
Print Assumptions C168_scale_refuted.
Print Assumptions C169_outline.
Print Assumptions C169_fits.
Print Assumptions C169_fits_refuted.
