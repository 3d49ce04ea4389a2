(** Properties of the front end's pole ellipses, options and centroids (C118-C122). *)
From Coq Require Import Reals Lra Lia List Arith String Psatz Classical.
From Verif Require Import RVec Trig MPca MAxes MSphere LRecon MStereo SpecStereo PStereo MFront SpecFront PFront.
Import ListNotations.
Open Scope R_scope.
Notation length := List.length.
Notation normal_errors := MFront.normal_errors.
Notation plane_errors := MFront.plane_errors.

(** * C118: error ellipses of poles *)
Definition v0_of (sheet : string) : R := if String.eqb sheet "upper" then 1 else -1.
Definition c1_of (sheet : string) (level : R) (o : opts) : R :=
  v0_of sheet * (if o_upper o then -1 else 1) * level.

Lemma normal_vector : forall h axes sheet level o qs q, 0 < vx h -> 0 < vy h -> 0 <= vz h ->
  sheet = "upper"%string \/ sheet = "lower"%string ->
  normal_errors h axes sheet (Some level) o = Ok qs -> In q qs ->
  exists c t, c * c + t * t = 1 /\
    let s0 := sqrt (vx h) in let s1 := sqrt (vy h) in let s2 := sqrt (vz h) in
    q = to_sph o (vm (V3 (- (s1 * c) * c1_of sheet level o * s2 / s0)
                         (- (s0 * t) * c1_of sheet level o * s2 / s1)
                         (sqrt (s1 * c * (s1 * c) + s0 * t * (s0 * t)) * v0_of sheet)) axes).
Proof.
  intros h axes sheet level o qs q H0 H1 H2 HS E H. unfold normal_errors in E.
  destruct (Req_EM_T (vx h) 0); [lra|]. destruct (Req_EM_T (vy h) 0); [lra|].
  rewrite !fsqrt_pos in E by lra. injection E; clear E; intros E. subst qs.
  rewrite map_map in H. apply in_map_iff in H. destruct H as (p & E & H).
  apply ell_In in H. destruct H as (c & t & -> & S). exists c, t. split; auto. cbv zeta.
  rewrite <- E. f_equal. unfold normal_step. cbn [fst snd].
  assert (NS : normal_scale sheet = Some (v0_of sheet)) by (destruct HS; subst; reflexivity).
  rewrite NS. unfold js_norm, c1_of. cbn [map d3_sum jmul obind].
  rewrite Rplus_0_r.
  destruct (o_upper o); cbn [jmul jneg jdiv obind];
  (rewrite along_real; apply f_equal2; [|reflexivity]; apply (f_equal3 V3); unfold Rdiv; ring).
Qed.

Lemma normal_coords : forall h axes sheet level o qs q,
  0 < vx h -> 0 < vy h -> 0 < vz h -> orthonormal axes ->
  sheet = "upper"%string \/ sheet = "lower"%string ->
  normal_errors h axes sheet (Some level) o = Ok qs -> In q qs ->
  exists lon lat, q = (lon, Some lat) /\
    let u := drawn (o_degrees o) (o_traditional o) (o_upper o) (lon, lat) in
    unit3 u /\ 0 < v0_of sheet * c2 axes u /\
    vx h * (c0 axes u * c0 axes u) + vy h * (c1 axes u * c1 axes u) =
      level * level * (vz h * (c2 axes u * c2 axes u)).
Proof.
  intros h axes sheet level o qs q H0 H1 H2 HO HS E Hq.
  destruct (normal_vector h axes sheet level o qs q) as (c & t & S & Q); auto; [lra|]. cbv zeta in Q.
  assert (S0 : sqrt (vx h) * sqrt (vx h) = vx h /\ 0 < sqrt (vx h)) by (split; [apply sqrt_sqrt; lra | apply sqrt_lt_R0; lra]).
  assert (S1 : sqrt (vy h) * sqrt (vy h) = vy h /\ 0 < sqrt (vy h)) by (split; [apply sqrt_sqrt; lra | apply sqrt_lt_R0; lra]).
  assert (S2 : sqrt (vz h) * sqrt (vz h) = vz h /\ 0 < sqrt (vz h)) by (split; [apply sqrt_sqrt; lra | apply sqrt_lt_R0; lra]).
  set (s0 := sqrt (vx h)) in *. set (s1 := sqrt (vy h)) in *. set (s2 := sqrt (vz h)) in *.
  destruct S0 as [Q0 P0], S1 as [Q1 P1], S2 as [Q2 P2].
  assert (PZ : 0 < s1 * c * (s1 * c) + s0 * t * (s0 * t)).
  { apply hyp_pos. destruct (Req_dec c 0) as [z|z].
    - right. intros z'. apply Rmult_integral in z'. destruct z'; [lra|]. subst. nra.
    - left. intros z'. apply Rmult_integral in z'. destruct z'; lra. }
  set (z := sqrt (s1 * c * (s1 * c) + s0 * t * (s0 * t))) in *.
  assert (ZZ : z * z = s1 * c * (s1 * c) + s0 * t * (s0 * t)) by (apply sqrt_sqrt; lra).
  assert (ZP : 0 < z) by now apply sqrt_lt_R0.
  assert (VV : v0_of sheet * v0_of sheet = 1) by (destruct HS; subst; unfold v0_of; simpl; ring).
  assert (CC : c1_of sheet level o * c1_of sheet level o = level * level).
  { unfold c1_of. replace (v0_of sheet * (if o_upper o then -1 else 1) * level * (v0_of sheet * (if o_upper o then -1 else 1) * level))
      with (v0_of sheet * v0_of sheet * (level * level)) by (destruct (o_upper o); ring). rewrite VV. ring. }
  set (e := V3 _ _ _) in Q.
  assert (NE : 0 < nrm2 e).
  { unfold nrm2. vunf. unfold e. cbn [vx vy vz]. set (a := _ / s0). set (b := _ / s1).
    assert (0 < z * v0_of sheet * (z * v0_of sheet)).
    { replace (z * v0_of sheet * (z * v0_of sheet)) with (z * z * (v0_of sheet * v0_of sheet)) by ring.
      rewrite VV. nra. }
    nra. }
  assert (NZ : vm e axes <> vzero) by (apply vm_nonzero; auto).
  destruct (to_sph_dir o _ NZ) as (lon & lat & E1 & D). exists lon, lat. split; [now rewrite Q, E1|].
  cbv zeta. rewrite D. destruct (unit_scaled _ NZ) as [U P]. split; [exact U|].
  set (k := / norm (vm e axes)) in *. assert (K : 0 < k) by now apply Rinv_0_lt_compat.
  destruct (coords_vm e axes HO) as (A0 & A1 & A2).
  destruct (coords_scaled axes k (vm e axes)) as (B0 & B1 & B2).
  rewrite A0 in B0. rewrite A1 in B1. rewrite A2 in B2. rewrite B0, B1, B2.
  unfold e. cbn [vx vy vz]. split.
  - replace (v0_of sheet * (k * (z * v0_of sheet))) with (k * z * (v0_of sheet * v0_of sheet)) by ring.
    rewrite VV. assert (0 < k * z) by (apply Rmult_lt_0_compat; auto). lra.
  - rewrite <- Q0, <- Q1, <- Q2.
    replace (level * level * (s2 * s2 * (k * (z * v0_of sheet) * (k * (z * v0_of sheet)))))
      with (level * level * (s2 * s2 * (k * k * (z * z) * (v0_of sheet * v0_of sheet)))) by ring.
    rewrite VV, ZZ, <- CC. field. lra.
Qed.

(** Every outline point of the pole's error ellipse is on the cone polar to the
    plane's error cone, widened by the level, on the side of the sheet. *)
Theorem C118_polar : forall h axes sheet level o qs q,
  0 < vx h -> 0 < vy h -> 0 < vz h -> orthonormal axes ->
  sheet = "upper"%string \/ sheet = "lower"%string ->
  normal_errors h axes sheet (Some level) o = Ok qs -> In q qs ->
  exists lon lat, q = (lon, Some lat) /\
    let u := drawn (o_degrees o) (o_traditional o) (o_upper o) (lon, lat) in
    unit3 u /\
    (if String.eqb sheet "upper" then 0 < dot u (r2 axes) else dot u (r2 axes) < 0) /\
    vx h * (dot u (r0 axes) * dot u (r0 axes)) + vy h * (dot u (r1 axes) * dot u (r1 axes)) =
      level * level * (vz h * (dot u (r2 axes) * dot u (r2 axes))).
Proof.
  intros h axes sheet level o qs q H0 H1 H2 HO HS E Hq.
  destruct (normal_coords h axes sheet level o qs q) as (lon & lat & Q & U & V & W); auto.
  exists lon, lat. split; auto. cbv zeta in *. split; auto. split; auto.
  unfold v0_of, c2 in V. destruct (String.eqb sheet "upper"); lra.
Qed.

(** At level 1 the poles and the girdles tell the same story: the plane
    perpendicular to a drawn pole touches the error cone along one line and
    leaves the rest of the cone on one side. *)
Theorem C118_tangent : forall h axes o qs q,
  0 < vx h -> 0 < vy h -> 0 < vz h -> orthonormal axes ->
  normal_errors h axes "upper" (Some 1) o = Ok qs -> In q qs ->
  exists lon lat, q = (lon, Some lat) /\
    let u := drawn (o_degrees o) (o_traditional o) (o_upper o) (lon, lat) in
    (exists g, g <> vzero /\ on_cone axes h g /\ dot u g = 0) /\
    (forall g, in_cone axes h g -> 0 <= dot u g).
Proof.
  intros h axes o qs q H0 H1 H2 HO E Hq.
  destruct (normal_coords h axes "upper" 1 o qs q) as (lon & lat & Q & U & V & W); auto.
  exists lon, lat. split; auto. cbv zeta in *. set (u := drawn _ _ _ _) in *. clearbody u.
  unfold v0_of in V. simpl in V. rewrite Rmult_1_l in V.
  assert (DG : forall g, dot u g = c0 axes u * c0 axes g + c1 axes u * c1 axes g + c2 axes u * c2 axes g).
  { intros g. rewrite <- (dot_mv_mv axes u g HO). unfold c0, c1, c2. rewrite !(dot_comm u), !(dot_comm g).
    unfold mv, dot at 1. simpl. ring. }
  set (x := c0 axes u) in *. set (y := c1 axes u) in *. set (z := c2 axes u) in *. clearbody x y z.
  split.
  - set (e := V3 (vx h * x) (vy h * y) (- (vz h * z))). exists (vm e axes).
    destruct (coords_vm e axes HO) as (A0 & A1 & A2). split; [|split].
    + apply vm_nonzero; auto. unfold nrm2. vunf. unfold e. cbn [vx vy vz].
      assert (0 < vz h * z) by (apply Rmult_lt_0_compat; auto).
      assert (0 < vz h * z * (vz h * z)) by (apply Rmult_lt_0_compat; auto). nra.
    + unfold on_cone. rewrite A0, A1, A2. unfold e. cbn [vx vy vz].
      replace (vx h * x * (vx h * x) / vx h + vy h * y * (vy h * y) / vy h)
        with (vx h * (x * x) + vy h * (y * y)) by (field; lra).
      rewrite W. field. lra.
    + rewrite DG, A0, A1, A2. unfold e. cbn [vx vy vz]. lra.
  - intros g [G P]. rewrite DG. set (a := c0 axes g) in *. set (b := c1 axes g) in *. set (c := c2 axes g) in *.
    clearbody a b c. clear DG Q U E Hq HO.
    assert (CS : (x * a + y * b) * (x * a + y * b) <= (vx h * (x * x) + vy h * (y * y)) * (a * a / vx h + b * b / vy h)).
    { assert (Y : (vx h * (x * x) + vy h * (y * y)) * (a * a / vx h + b * b / vy h) - (x * a + y * b) * (x * a + y * b)
        = (vx h * x * b - vy h * y * a) * (vx h * x * b - vy h * y * a) / (vx h * vy h)) by (field; lra).
      assert (0 <= (vx h * x * b - vy h * y * a) * (vx h * x * b - vy h * y * a) / (vx h * vy h)).
      { apply Rmult_le_pos; [apply Rle_0_sqr|]. apply Rlt_le, Rinv_0_lt_compat. apply Rmult_lt_0_compat; auto. }
      lra. }
    assert (B : (x * a + y * b) * (x * a + y * b) <= z * c * (z * c)).
    { eapply Rle_trans; [exact CS|]. rewrite W.
      replace (z * c * (z * c)) with (1 * 1 * (vz h * (z * z)) * (c * c / vz h)) by (field; lra).
      apply Rmult_le_compat_l; auto. assert (0 <= z * z) by nra. nra. }
    assert (ZC : 0 < z * c) by (apply Rmult_lt_0_compat; auto).
    apply sq_le in B; [|lra]. pose proof (Rle_abs (- (x * a + y * b))). rewrite Rabs_Ropp in H. lra.
Qed.

(** The drawing is impossible exactly when one of the first two axes has no length. *)
Theorem C118_finite : forall h axes sheet level o,
  normal_errors h axes sheet level o = NonFinite <-> vx h = 0 \/ vy h = 0.
Proof.
  intros h axes sheet level o. unfold normal_errors.
  destruct (Req_EM_T (vx h) 0), (Req_EM_T (vy h) 0); split; intros H; auto; try discriminate; tauto.
Qed.
Theorem C118_count : forall h axes sheet level o qs, (0 < o_n o)%nat ->
  normal_errors h axes sheet level o = Ok qs -> length qs = (2 * Nat.div2 (S (o_n o)))%nat.
Proof.
  intros h axes sheet level o qs Hn. unfold normal_errors.
  destruct (Req_EM_T (vx h) 0); [discriminate|]. destruct (Req_EM_T (vy h) 0); [discriminate|].
  intros E. injection E; intros <-. rewrite !map_length. now apply C115_count.
Qed.

Example C118_ex : exists qs q, normal_errors (V3 4 1 1) (M3 ex ey ez) "upper" (Some 1) (mkOpts 4 true true true) = Ok qs /\
  In q qs.
Proof.
  unfold normal_errors. cbn [vx vy vz]. destruct (Req_EM_T 4 0); [lra|]. destruct (Req_EM_T 1 0); [lra|].
  do 2 eexists. split; [reflexivity|]. left. reflexivity.
Qed.

(** * C119: convolveAxes and deconvolveAxes *)
Definition unit_columns (m : mat3) : Prop := unit3 (r0 (mT m)) /\ unit3 (r1 (mT m)) /\ unit3 (r2 (mT m)).
Definition scale_columns (m : mat3) (s : vec3) : mat3 := mm m (mdiag s).
Definition scale_rows (s : vec3) (m : mat3) : mat3 := mm (mdiag s) m.

Lemma norm_scale_unit : forall k v, 0 < k -> unit3 v -> norm (vscale k v) = k.
Proof. intros k v K U. rewrite norm_vadd_scale by auto. rewrite norm_unit by auto. ring. Qed.

(** Columns of length [s] are taken apart into their lengths and directions, *)
Theorem C119_deconvolve : forall q s, unit_columns q -> 0 < vx s -> 0 < vy s -> 0 < vz s ->
  deconvolve_axes (scale_columns q s) = Some (s, q).
Proof.
  intros q s (U0 & U1 & U2) H0 H1 H2. unfold deconvolve_axes, transpose. rewrite !js_norm_row.
  assert (C0 : r0 (mT (scale_columns q s)) = vscale (vx s) (r0 (mT q)))
    by (unfold scale_columns; apply vec3_eq; munf; simpl; ring).
  assert (C1 : r1 (mT (scale_columns q s)) = vscale (vy s) (r1 (mT q)))
    by (unfold scale_columns; apply vec3_eq; munf; simpl; ring).
  assert (C2 : r2 (mT (scale_columns q s)) = vscale (vz s) (r2 (mT q)))
    by (unfold scale_columns; apply vec3_eq; munf; simpl; ring).
  rewrite C0, C1, C2. rewrite !norm_scale_unit by auto. cbn [vx vy vz].
  destruct (Req_EM_T (vx s) 0); [lra|]. destruct (Req_EM_T (vy s) 0); [lra|]. destruct (Req_EM_T (vz s) 0); [lra|].
  f_equal. apply f_equal2; [destruct s; reflexivity|].
  unfold scale_columns. apply mat3_eq; apply vec3_eq; munf; simpl; field; lra.
Qed.
(** but convolveAxes scales rows: *)
Theorem C119_convolve : forall q s, unit_columns q -> convolve_axes q s = Some (scale_rows s q).
Proof.
  intros q s U. unfold convolve_axes.
  assert (E : scale_columns q (V3 1 1 1) = q)
    by (unfold scale_columns; apply mat3_eq; apply vec3_eq; munf; simpl; ring).
  rewrite <- E at 1. rewrite C119_deconvolve by (auto; simpl; lra). cbn [obind].
  f_equal. unfold scale_rows. apply mat3_eq; apply vec3_eq; munf; simpl; ring.
Qed.
(** deconvolveAxes undoes it only after a transposition, on orthonormal axes. *)
Theorem C119_transposed : forall q s c, orthonormal q -> 0 < vx s -> 0 < vy s -> 0 < vz s ->
  convolve_axes q s = Some c -> deconvolve_axes (transpose c) = Some (s, transpose q).
Proof.
  intros q s c HO H0 H1 H2 E.
  assert (UT : unit_columns q).
  { destruct (orthonormal_T q HO) as (A & B & C & _). repeat split; auto. }
  assert (UQ : unit_columns (transpose q)).
  { destruct HO as (A & B & C & _). unfold unit_columns, transpose.
    assert (TT : mT (mT q) = q) by (apply mat3_eq; apply vec3_eq; munf; reflexivity).
    rewrite TT. repeat split; auto. }
  rewrite C119_convolve in E by auto. injection E; intros <-.
  replace (transpose (scale_rows s q)) with (scale_columns (transpose q) s).
  - now apply C119_deconvolve.
  - unfold scale_rows, scale_columns, transpose. apply mat3_eq; apply vec3_eq; munf; simpl; ring.
Qed.
(** So the comment "Inverse of convolveAxes" is wrong. *)
Lemma deconvolve_lengths : forall m s q, deconvolve_axes m = Some (s, q) -> vx s = norm (r0 (mT m)).
Proof.
  intros m s q. unfold deconvolve_axes, transpose. rewrite !js_norm_row.
  destruct (Req_EM_T _ 0); [discriminate|]. destruct (Req_EM_T _ 0); [discriminate|].
  destruct (Req_EM_T _ 0); [discriminate|]. intros E. injection E; intros _ <-. reflexivity.
Qed.
Theorem C119_inverse_refuted : exists q s c, orthonormal q /\ 0 < vx s /\ 0 < vy s /\ 0 < vz s /\
  convolve_axes q s = Some c /\ deconvolve_axes c <> Some (s, q).
Proof.
  exists (M3 (V3 (3/5) (4/5) 0) (V3 (-4/5) (3/5) 0) ez), (V3 2 1 1).
  assert (HO : orthonormal (M3 (V3 (3/5) (4/5) 0) (V3 (-4/5) (3/5) 0) ez))
    by (unfold orthonormal; vunf; simpl; repeat split; lra).
  eexists. split; [exact HO|]. simpl vx. simpl vy. simpl vz. split; [lra|]. split; [lra|]. split; [lra|].
  split.
  - apply C119_convolve. destruct (orthonormal_T _ HO) as (A & B & C & _). repeat split; auto.
  - intros E. apply deconvolve_lengths in E. apply (f_equal (fun x => x * x)) in E. cbv beta in E.
    rewrite norm_sqr in E. unfold scale_rows, nrm2 in E. munf. simpl in E. lra.
Qed.
Example C119_ex : unit_columns (M3 (V3 (3/5) (4/5) 0) (V3 (-4/5) (3/5) 0) ez).
Proof. unfold unit_columns, unit3, nrm2. munf. simpl. repeat split; lra. Qed.

(** * C120: option objects *)
Definition keys (o : obj) : list string := map fst o.
Lemma get_map : forall (f : string * jsv -> jsv) o k, In k (keys o) ->
  NoDup (keys o) -> get k (map (fun kv => (fst kv, f kv)) o) = f (k, get k o).
Proof.
  intros f o k. induction o as [|[k' v] t IH]; intros H N; [destruct H|]. simpl.
  destruct (String.eqb_spec k k') as [->|n].
  - reflexivity.
  - simpl in H. destruct H as [->|H]; [contradiction|]. apply IH; auto. now inversion N.
Qed.
(** The clone has the keys of the first argument and no others, and a new value
    replaces the old one unless it is undefined, null, false, zero, NaN or the empty
    string. *)
Definition ignored : list jsv := [JUndef; JNull; JBool false; JNum (Some 0); JNum None; JStr EmptyString].
Lemma truthy_spec : forall v, truthy v = true <-> ~ In v ignored.
Proof.
  intros v. unfold ignored. destruct v as [| |[]|[x|]|[|a s]|l]; cbn [truthy In].
  1-4: split; [discriminate|intros H; exfalso; apply H; tauto] || (split; [intros _ H; decompose [or] H; congruence || tauto|reflexivity]).
  - destruct (Req_EM_T x 0) as [->|n]; split; try discriminate; try reflexivity; [intros H; exfalso; apply H; tauto|].
    intros _ H. decompose [or] H; try congruence; try tauto.
  - split; [discriminate|intros H; exfalso; apply H; tauto].
  - split; [discriminate|intros H; exfalso; apply H; tauto].
  - split; [intros _ H; decompose [or] H; congruence || tauto|reflexivity].
  - split; [intros _ H; decompose [or] H; congruence || tauto|reflexivity].
Qed.
Theorem C120_clone : forall o n, NoDup (keys o) ->
  keys (clone_options o n) = keys o /\
  forall k, In k (keys o) ->
    (~ In (get k n) ignored -> get k (clone_options o n) = get k n) /\
    (In (get k n) ignored -> get k (clone_options o n) = get k o).
Proof.
  intros o n N. split.
  - unfold keys, clone_options. rewrite map_map. reflexivity.
  - intros k H. unfold clone_options.
    rewrite (get_map (fun kv => if truthy (get (fst kv) n) then get (fst kv) n else get (fst kv) o) o k H N).
    cbn [fst]. pose proof (truthy_spec (get k n)) as T. destruct (truthy (get k n)).
    + split; [reflexivity|]. intros I. exfalso. now apply T.
    + split; [|reflexivity]. intros I. apply T in I. discriminate.
Qed.

Lemma set_key_get : forall k v o, get k (set_key k v o) = v.
Proof.
  intros k v o. induction o as [|[k' v'] t IH]; simpl; [now rewrite String.eqb_refl|].
  destruct (String.eqb_spec k k') as [->|n]; simpl; [now rewrite String.eqb_refl|].
  destruct (String.eqb_spec k k'); [contradiction|exact IH].
Qed.
Lemma set_key_keys : forall k v o, (forall x, In x (keys (set_key k v o)) <-> x = k \/ In x (keys o)) /\
  (NoDup (keys o) -> NoDup (keys (set_key k v o))).
Proof.
  intros k v o. induction o as [|[k' v'] t [IH1 IH2]]; simpl.
  - split; [intros x; intuition | intros _; constructor; [simpl; auto | constructor]].
  - destruct (String.eqb_spec k k') as [->|n]; simpl.
    + split; [intros x; intuition | auto].
    + split.
      * intros x. rewrite IH1. intuition.
      * intros N. inversion N; subst. constructor; auto. rewrite IH1. intros [E|E]; [congruence|contradiction].
Qed.
Lemma get_In : forall k o, get k o <> JUndef -> In k (keys o).
Proof.
  intros k o. induction o as [|[k' v'] t IH]; simpl; [congruence|].
  destruct (String.eqb_spec k k'); auto.
Qed.

(** One set of options per level, in order, each carrying its level, *)
Theorem C120_levels : forall o ls, NoDup (keys o) -> get "level" o = JArr ls ->
  let out := snd (ellipse_options o) in
  length out = length ls /\
  forall i x, nth_error ls i = Some (Some x) -> x <> 0 ->
    exists oi, nth_error out i = Some oi /\ get "level" oi = JNum (Some x) /\ keys oi = keys o /\
      forall k, In k (keys o) -> k <> "level"%string -> get k oi = get k o.
Proof.
  intros o ls N G. cbv zeta. unfold ellipse_options. rewrite G. cbn [snd]. rewrite G. split; [apply map_length|].
  intros i x E X. rewrite nth_error_map, E. cbn [option_map]. eexists. split; [reflexivity|].
  destruct (C120_clone o [("level"%string, JNum (Some x))] N) as [K V].
  assert (T : ~ In (get "level" [("level"%string, JNum (Some x))]) ignored).
  { apply truthy_spec. simpl. destruct (Req_EM_T x 0); [contradiction|reflexivity]. }
  split; [|split].
  - apply (V "level"%string); auto. apply get_In. rewrite G. discriminate.
  - exact K.
  - intros k Hk NE. apply (V k Hk). cbn [get]. destruct (String.eqb_spec k "level"); [contradiction|now left].
Qed.
(** a level given alone is kept, one being the default, *)
Theorem C120_single : forall o, NoDup (keys o) ->
  (forall ls, get "level" o <> JArr ls) ->
  exists oi, snd (ellipse_options o) = [oi] /\
    get "level" oi = match get "level" o with JUndef | JNull => JNum (Some 1) | l => l end.
Proof.
  intros o N NA. unfold ellipse_options.
  set (o' := match get "level" o with JUndef | JNull => set_key "level" (JNum (Some 1)) o | _ => o end).
  assert (GL : get "level" o' = match get "level" o with JUndef | JNull => JNum (Some 1) | l => l end).
  { unfold o'. destruct (get "level" o) eqn:E; try (rewrite E; reflexivity); apply set_key_get. }
  assert (N' : NoDup (keys o')).
  { unfold o'. destruct (get "level" o); auto; now apply set_key_keys. }
  cbn [snd]. rewrite <- GL.
  assert (IN : In "level"%string (keys o')).
  { apply get_In. rewrite GL. destruct (get "level" o); discriminate. }
  destruct (C120_clone o' [("level"%string, get "level" o')] N') as [_ V]. destruct (V _ IN) as [V1 V2].
  assert (CL : get "level" (clone_options o' [("level"%string, get "level" o')]) = get "level" o').
  { cbn [get] in V1, V2. rewrite String.eqb_refl in V1, V2. pose proof (truthy_spec (get "level" o')) as T.
    destruct (truthy (get "level" o')); [now apply V1, T|].
    destruct (Classical_Prop.classic (In (get "level" o') ignored)); auto. }
  destruct (get "level" o') eqn:E.
  6:{ exfalso. destruct (get "level" o) eqn:F; try discriminate. apply (NA l0). reflexivity. }
  all: eexists; (split; [reflexivity|]); exact CL.
Qed.
(** but level 0 in a list is labelled with the whole list. *)
Theorem C120_zero_refuted : exists o ls i oi, NoDup (keys o) /\ get "level" o = JArr ls /\
  nth_error ls i = Some (Some 0) /\ nth_error (snd (ellipse_options o)) i = Some oi /\
  get "level" oi = JArr ls.
Proof.
  exists [("level"%string, JArr [Some 0; Some 1])], [Some 0; Some 1], 0%nat.
  exists [("level"%string, JArr [Some 0; Some 1])].
  split; [constructor; [simpl; auto|constructor]|]. split; [reflexivity|]. split; [reflexivity|].
  split; [|reflexivity]. unfold ellipse_options. simpl. unfold clone_options. simpl.
  destruct (Req_EM_T 0 0); [reflexivity|lra].
Qed.
Example C120_ex : NoDup (keys [("n"%string, JNum (Some 60)); ("level"%string, JArr [Some 1; Some 2])]) /\
  get "level" [("n"%string, JNum (Some 60)); ("level"%string, JArr [Some 1; Some 2])] = JArr [Some 1; Some 2].
Proof. split; [repeat constructor; simpl; intuition; discriminate | reflexivity]. Qed.

(** The outline drawn for that list is the one for level 0 all the same: the level is
    NaN as a number, and NaN drops out of the dot products. *)
Theorem C120_zero_drawn : forall h axes sheet o, 0 <= vx h -> 0 <= vy h -> 0 <= vz h ->
  normal_errors h axes sheet None o = normal_errors h axes sheet (Some 0) o.
Proof.
  intros h axes sheet o H0 H1 H2. unfold normal_errors.
  destruct (Req_EM_T (vx h) 0); [reflexivity|]. destruct (Req_EM_T (vy h) 0); [reflexivity|].
  f_equal. f_equal. rewrite !fsqrt_pos by auto. apply map_ext_in. intros p Hp.
  apply ell_In in Hp. destruct Hp as (c & t & -> & _). unfold normal_step. cbn [fst snd].
  rewrite along_nan. symmetry. rewrite along_nan. symmetry. f_equal.
  destruct (normal_scale sheet), (o_upper o); simpl; repeat f_equal; unfold Rdiv; ring.
Qed.

(** * C121: centroids of several planes *)
Lemma total_acc : forall planes t,
  fold_left (fun t p => (t + match pl_len p with Some n => n | None => 0 end)%nat) planes t =
  (t + fold_left (fun t p => (t + match pl_len p with Some n => n | None => 0 end)%nat) planes 0)%nat.
Proof.
  induction planes as [|p l IH]; intros t; simpl; [lia|]. rewrite IH. rewrite (IH (match pl_len p with Some n => n | None => 0%nat end)). lia.
Qed.
Lemma total_sum : forall planes,
  INR (fold_left (fun t p => (t + match pl_len p with Some n => n | None => 0 end)%nat) planes 0%nat) =
  sumf (fun p => match pl_len p with Some n => INR n | None => 0 end) planes.
Proof.
  induction planes as [|p l IH]; simpl; auto. rewrite total_acc, plus_INR, IH.
  destruct (pl_len p); simpl; lra.
Qed.
Lemma d3_sum_div : forall (f : vec3 -> R) ws T, T <> 0 ->
  d3_sum (map (fun w => fdiv (f w) T) ws) = sumf f ws / T.
Proof.
  intros f ws T H. assert (F : forall x, fdiv x T = Some (x / T)).
  { intros x. unfold fdiv. destruct (Req_EM_T T 0); [contradiction|reflexivity]. }
  induction ws as [|w t IH]; simpl; [unfold Rdiv; ring|]. rewrite F, IH. field. auto.
Qed.
Lemma d3_sum_nan : forall (f : vec3 -> R) ws, d3_sum (map (fun w => fdiv (f w) 0) ws) = 0.
Proof.
  intros f ws. assert (F : forall x, fdiv x 0 = None).
  { intros x. unfold fdiv. destruct (Req_EM_T 0 0); [reflexivity|lra]. }
  induction ws as [|w t IH]; simpl; auto. now rewrite F.
Qed.

(** What the planes were made from: the points of a measurement, or only a centre *)
Definition plane_of (p : list vec3 + vec3) : plane_data :=
  match p with inl pts => mkPlane (centroid pts) (Some (length pts)) | inr c => mkPlane c None end.
Definition points_of (p : list vec3 + vec3) : list vec3 := match p with inl pts => pts | inr _ => [] end.
Lemma coord_centroid : forall (f : vec3 -> R) pts, pts <> [] ->
  (forall k v, f (vscale k v) = k * f v) -> f (vsum pts) = sumf f pts ->
  f (centroid pts) * INR (length pts) = sumf f pts.
Proof.
  intros f pts N L S. unfold centroid. rewrite L, S.
  assert (INR (length pts) <> 0) by (apply not_0_INR; destruct pts; [congruence|simpl; lia]). field. auto.
Qed.

(** When every centre is the mean of its own points, the result is the mean of all the
    points of all the planes together; planes without points do not count. *)
Theorem C121_average : forall ps, (forall pts, In (inl pts) ps -> pts <> []) ->
  (List.concat (map points_of ps) <> [] ->
     centroid_average true (map plane_of ps) = Ok (centroid (List.concat (map points_of ps)))) /\
  (List.concat (map points_of ps) = [] -> centroid_average true (map plane_of ps) = Ok vzero).
Proof.
  intros ps NE. set (all := List.concat (map points_of ps)).
  assert (T : INR (fold_left (fun t p => (t + match pl_len p with Some n => n | None => 0 end)%nat) (map plane_of ps) 0%nat)
    = INR (length all)).
  { rewrite total_sum, sumf_map. unfold all. clear. induction ps as [|p t IH]; simpl; auto.
    rewrite app_length, plus_INR, <- IH. destruct p; simpl; ring. }
  assert (W : forall f : vec3 -> R, (forall k v, f (vscale k v) = k * f v) -> (forall l, f (vsum l) = sumf f l) ->
    (forall c n, f (V3 (vx c * INR n) (vy c * INR n) (vz c * INR n)) = f c * INR n) -> f vzero = 0 ->
    sumf f (map (fun p => match pl_len p with None => vzero
      | Some n => V3 (vx (pl_center p) * INR n) (vy (pl_center p) * INR n) (vz (pl_center p) * INR n) end) (map plane_of ps))
    = sumf f all).
  { intros f L S M Z. unfold all. rewrite map_map, sumf_map, sumf_concat, sumf_map. apply sumf_ext.
    intros [pts|c] Hp; cbn [plane_of pl_len pl_center points_of sumf]; [|exact Z]. rewrite M. apply coord_centroid; auto. }
  split; intros HA; unfold centroid_average; rewrite T; cbv zeta.
  - assert (NZ : INR (length all) <> 0) by (apply not_0_INR; destruct all; [congruence|simpl; lia]).
    rewrite !d3_sum_div by auto. rewrite !W; try reflexivity.
    unfold centroid, vscale, vsum. cbn [vx vy vz]. f_equal. apply (f_equal3 V3); field; auto.
  - rewrite HA. simpl INR. rewrite !d3_sum_nan. reflexivity.
Qed.
(** The module never imports the name d3: without a global of that name the function fails. *)
Theorem C121_needs_global : forall planes, centroid_average false planes = Raise NameError.
Proof. reflexivity. Qed.

Lemma extremes_acc : forall (f : vec3 -> R) l a b, 
  exists x y, fold_left (fun e p => extreme_step (f (pl_center p)) e) l (Some (a, b)) = Some (x, y) /\
    (x = a \/ exists p, In p l /\ x = f (pl_center p)) /\ (y = b \/ exists p, In p l /\ y = f (pl_center p)) /\
    x <= a /\ b <= y /\ (forall p, In p l -> x <= f (pl_center p) <= y).
Proof.
  intros f l. induction l as [|p t IH]; intros a b; simpl.
  - exists a, b. split; auto. split; auto. split; auto. split; [lra|]. split; [lra|]. intros p [].
  - destruct (IH (if Rlt_dec (f (pl_center p)) a then f (pl_center p) else a)
                 (if Rlt_dec b (f (pl_center p)) then f (pl_center p) else b)) as (x & y & E & X & Y & A & B & C).
    exists x, y. split; [exact E|].
    destruct (Rlt_dec (f (pl_center p)) a), (Rlt_dec b (f (pl_center p)));
    (split; [destruct X as [->|(q & Q & ->)]; [|right; exists q; auto]; auto; right; exists p; auto|]);
    (split; [destruct Y as [->|(q & Q & ->)]; [|right; exists q; auto]; auto; right; exists p; auto|]);
    (split; [lra|]; split; [lra|]; intros q [<-|Q]; [lra|auto]).
Qed.
Lemma extremes_spec : forall f l, l <> [] -> exists x y, extremes f l = Some (x, y) /\
  midrange (fun p => f (pl_center p)) l ((x + y) / 2).
Proof.
  intros f [|p t] N; [congruence|]. unfold extremes. simpl.
  destruct (extremes_acc f t (if Rlt_dec (f (pl_center p)) (f (pl_center p)) then f (pl_center p) else f (pl_center p))
    (if Rlt_dec (f (pl_center p)) (f (pl_center p)) then f (pl_center p) else f (pl_center p))) as (x & y & E & X & Y & A & B & C).
  exists x, y. split; [exact E|].
  assert (X' : exists q, In q (p :: t) /\ x = f (pl_center q)).
  { destruct X as [->|(q & Q & ->)]; [exists p; split; [now left|]; destruct (Rlt_dec _ _); auto | exists q; split; auto; now right]. }
  assert (Y' : exists q, In q (p :: t) /\ y = f (pl_center q)).
  { destruct Y as [->|(q & Q & ->)]; [exists p; split; [now left|]; destruct (Rlt_dec _ _); auto | exists q; split; auto; now right]. }
  destruct X' as (a & Ia & ->), Y' as (b & Ib & ->). exists a, b. split; auto. split; auto. split; auto.
  intros q [<-|Q]; [|auto]. destruct (Rlt_dec _ _); lra.
Qed.

(** The other centroid is the centre of the box around the centres; with no plane at
    all it fails. *)
Theorem C121_extrema : forall planes,
  (planes <> [] -> exists c, centroid_extrema planes = Ok c /\
     midrange (fun p => vx (pl_center p)) planes (vx c) /\
     midrange (fun p => vy (pl_center p)) planes (vy c) /\
     midrange (fun p => vz (pl_center p)) planes (vz c)) /\
  (planes = [] -> centroid_extrema planes = Raise TypeError).
Proof.
  intros planes. split; intros H; [|subst; reflexivity]. unfold centroid_extrema.
  destruct (extremes_spec vx planes H) as (a & b & -> & X).
  destruct (extremes_spec vy planes H) as (c & d & -> & Y).
  destruct (extremes_spec vz planes H) as (e & f & -> & Z).
  eexists. split; [reflexivity|]. cbn [vx vy vz]. auto.
Qed.
Example C121_ex : centroid_extrema [mkPlane (V3 0 0 1) None; mkPlane (V3 4 (-2) 3) (Some 5%nat); mkPlane (V3 1 0 0) None]
  = Ok (V3 2 (-1) (3/2)).
Proof.
  unfold centroid_extrema, extremes, extreme_step. simpl.
  repeat match goal with |- context[Rlt_dec ?a ?b] =>
    lazymatch a with context[Rlt_dec] => fail | _ => lazymatch b with context[Rlt_dec] => fail | _ =>
      destruct (Rlt_dec a b); [try (exfalso; lra)|try (exfalso; lra)] end end end.
  f_equal. apply (f_equal3 V3); lra.
Qed.
Example C121_average_ex : List.concat (map points_of [inl [V3 0 0 0; V3 2 2 2]; inr (V3 9 9 9); inl [V3 4 0 1]]) <> [].
Proof. discriminate. Qed.

(** * C122: error surfaces and axes handed to the drawing code *)
(** [contains] decides which side of the rings a point is on; turning every ring
    round exchanges the sides. *)
Definition two_sided {P} (contains : list (list P) -> P -> bool) : Prop :=
  forall rings p, contains rings p = false -> contains (map (@rev P) rings) p = true.
(** The surface drawn contains the plane's first point; its two rings are the lower and
    upper sheets, run through in opposite senses; the caller's object ends up holding
    those very rings, its nominal plane untouched. *)
Theorem C122_surface : forall P (contains : list (list P) -> P -> bool) d p rest,
  two_sided contains -> sh_nominal d = p :: rest ->
  exists rings d', error_surface contains d = Ok (rings, d') /\ contains rings p = true /\
    (rings = [sh_lower d; rev (sh_upper d)] \/ rings = [rev (sh_lower d); sh_upper d]) /\
    rings = [sh_lower d'; sh_upper d'] /\ sh_nominal d' = sh_nominal d.
Proof.
  intros P contains d p rest T N. unfold error_surface. rewrite N.
  destruct (contains [sh_lower d; rev (sh_upper d)] p) eqn:E.
  - eexists. eexists. split; [reflexivity|]. split; [exact E|]. split; [now left|]. split; reflexivity.
  - eexists. eexists. split; [reflexivity|]. split; [now apply T|].
    split; [right; simpl; now rewrite rev_involutive|]. split; reflexivity.
Qed.
(** So the function cannot be called twice on the same object with the same effect: the
    rings come back the other way round whenever the first call left them alone. *)
Theorem C122_twice_refuted : exists (contains : list (list nat) -> nat -> bool) d r1 d1 r2 d2,
  error_surface contains d = Ok (r1, d1) /\ error_surface contains d1 = Ok (r2, d2) /\
  r1 <> r2.
Proof.
  exists (fun _ _ => true), (mkSheets [0%nat] [1%nat; 2%nat] [3%nat; 4%nat]).
  do 4 eexists. split; [reflexivity|]. split; [reflexivity|]. simpl. discriminate.
Qed.
Example C122_ex : two_sided (fun (r : list (list nat)) (p : nat) =>
  match r with l :: _ => Nat.leb (hd 0%nat l) (last l 0%nat) | [] => true end).
Proof.
  intros rings p. destruct rings as [|[|x l] rest]; try discriminate. intros H.
  apply Nat.leb_gt in H. cbn [map hd] in *.
  assert (E : exists y m, rev (x :: l) = y :: m /\ y = last (x :: l) 0%nat /\ last (y :: m) 0%nat = x).
  { destruct (rev (x :: l)) as [|y m] eqn:R.
    - apply (f_equal (@length nat)) in R. rewrite rev_length in R. discriminate.
    - exists y, m. split; auto.
      assert (Q : x :: l = rev m ++ [y]) by (rewrite <- (rev_involutive (x :: l)), R; reflexivity).
      split; [rewrite Q, last_last; reflexivity|]. rewrite <- R. simpl. apply last_last. }
  destruct E as (y & m & -> & Y & X). rewrite X. cbn [hd]. apply Nat.leb_le. rewrite Y. lia.
Qed.

(** Axes are turned so that the third points up, by replacing the third row; the error
    cone is the same.  The caller's matrix is changed, and a second call changes nothing. *)
Theorem C122_axes : forall recon p ax, pr_axes p = Some ax -> (pr_hyp p <> None \/ pr_cov p <> None \/ pr_strike p = None) ->
  exists ax', construct_axes recon p = Ok ((match pr_hyp p with Some h => Some h | None => pr_cov p end, ax'),
                                        mkProps (pr_hyp p) (Some ax') (pr_cov p) (pr_strike p)) /\
    0 <= vz (r2 ax') /\ r0 ax' = r0 ax /\ r1 ax' = r1 ax /\ (r2 ax' = r2 ax \/ r2 ax' = vneg (r2 ax)) /\
    (forall h u, on_cone ax' h u <-> on_cone ax h u) /\
    construct_axes recon (mkProps (pr_hyp p) (Some ax') (pr_cov p) (pr_strike p)) = construct_axes recon p.
Proof.
  intros recon p ax A H. exists (flip_axes ax).
  assert (Z : 0 <= vz (r2 (flip_axes ax))).
  { unfold flip_axes. destruct (Rlt_dec (vz (r2 ax)) 0); simpl; lra. }
  assert (FF : flip_axes (flip_axes ax) = flip_axes ax).
  { unfold flip_axes at 1. destruct (Rlt_dec (vz (r2 (flip_axes ax))) 0); [lra|reflexivity]. }
  assert (C : forall q, pr_hyp q = pr_hyp p -> pr_cov q = pr_cov p -> pr_strike q = pr_strike p ->
    forall a, pr_axes q = Some a -> construct_axes recon q =
      Ok ((match pr_hyp p with Some h => Some h | None => pr_cov p end, flip_axes a),
          mkProps (pr_hyp p) (Some (flip_axes a)) (pr_cov p) (pr_strike p))).
  { intros q E1 E2 E3 a E4. unfold construct_axes. rewrite E1, E2, E3, E4.
    destruct (pr_hyp p), (pr_cov p), (pr_strike p); try reflexivity. destruct H as [H|[H|H]]; congruence. }
  split; [apply C; auto|]. split; [exact Z|].
  split; [unfold flip_axes; destruct (Rlt_dec _ _); reflexivity|].
  split; [unfold flip_axes; destruct (Rlt_dec _ _); reflexivity|].
  split; [unfold flip_axes; destruct (Rlt_dec _ _); [right|left]; reflexivity|].
  split.
  - intros h u. unfold on_cone, c0, c1, c2, flip_axes. destruct (Rlt_dec _ _); [|tauto].
    cbn [r0 r1 r2]. rewrite dot_neg_r.
    replace (- dot u (r2 ax) * - dot u (r2 ax)) with (dot u (r2 ax) * dot u (r2 ax)) by ring. tauto.
  - rewrite (C (mkProps (pr_hyp p) (Some (flip_axes ax)) (pr_cov p) (pr_strike p)) eq_refl eq_refl eq_refl (flip_axes ax) eq_refl). rewrite (C p eq_refl eq_refl eq_refl ax A).
    now rewrite FF.
Qed.
(** Without axes, the call fails unless there is a strike to rebuild them from. *)
Theorem C122_no_axes : forall recon p, pr_axes p = None ->
  (pr_hyp p = None -> pr_cov p = None -> forall s, pr_strike p = Some s ->
     construct_axes recon p = rbind (recon p) (fun '(h, ax) => Ok ((Some h, flip_axes ax), p))) /\
  ((pr_hyp p <> None \/ pr_cov p <> None \/ pr_strike p = None) -> construct_axes recon p = Raise TypeError).
Proof.
  intros recon p A. unfold construct_axes. rewrite A. split.
  - intros -> -> s ->. reflexivity.
  - intros H. destruct (pr_hyp p), (pr_cov p), (pr_strike p); try reflexivity. destruct H as [H|[H|H]]; congruence.
Qed.
Example C122_axes_ex : 0 > vz (r2 (M3 ex ey (vneg ez))).
Proof. simpl. lra. Qed.

Print Assumptions C118_polar.
Print Assumptions C118_tangent.
Print Assumptions C118_finite.
Print Assumptions C118_count.
Print Assumptions C119_deconvolve.
Print Assumptions C119_convolve.
Print Assumptions C119_transposed.
Print Assumptions C119_inverse_refuted.
Print Assumptions C120_clone.
Print Assumptions C120_levels.
Print Assumptions C120_single.
Print Assumptions C120_zero_refuted.
Print Assumptions C120_zero_drawn.
Print Assumptions C121_average.
Print Assumptions C121_needs_global.
Print Assumptions C121_extrema.
Print Assumptions C122_surface.
Print Assumptions C122_twice_refuted.
Print Assumptions C122_axes.
Print Assumptions C122_no_axes.
