(** Properties of the front end's error girdles and ellipses (C115-C119). *)
From Coq Require Import Reals Lra Lia List Arith String Psatz.
From Verif Require Import RVec Trig MPca MAxes MSphere LRecon MStereo SpecStereo PStereo MFront SpecFront.
Import ListNotations.
Open Scope R_scope.
Notation length := List.length.
Notation plane_errors := MFront.plane_errors.
Notation normal_errors := MFront.normal_errors.

(** * Lemmas *)
Lemma js_norm_row : forall v, js_norm (row v) = norm v.
Proof. intros v. unfold js_norm, row, norm. f_equal. simpl. vunf. simpl. ring. Qed.
Lemma sdot_real : forall x y z v, sdot [Some x; Some y; Some z] (row v) = dot (V3 x y z) v.
Proof. intros. unfold sdot, row. simpl. vunf. simpl. ring. Qed.
Lemma along_real : forall x y z axes, along [Some x; Some y; Some z] axes = vm (V3 x y z) axes.
Proof. intros. unfold along, transpose. rewrite !sdot_real. apply vec3_eq; munf; simpl; ring. Qed.

Lemma coords_vm : forall e axes, orthonormal axes ->
  c0 axes (vm e axes) = vx e /\ c1 axes (vm e axes) = vy e /\ c2 axes (vm e axes) = vz e.
Proof.
  intros e axes (A & B & C & D & E & F). unfold c0, c1, c2, vm.
  rewrite !dot_add_l, !dot_scale_l.
  rewrite (dot_comm (r1 axes) (r0 axes)), (dot_comm (r2 axes) (r0 axes)), (dot_comm (r2 axes) (r1 axes)).
  rewrite A, B, C, D, E, F. repeat split; ring.
Qed.
Lemma nrm2_vm : forall e axes, orthonormal axes -> nrm2 (vm e axes) = nrm2 e.
Proof.
  intros e axes H. destruct (coords_vm e axes H) as (A & B & C).
  unfold nrm2 at 1. unfold vm at 2. rewrite !dot_add_r, !dot_scale_r.
  unfold c0, c1, c2 in *. rewrite A, B, C. vunf. ring.
Qed.

Lemma deg_rad : forall (d : bool) x, (if d then radians ((if d then 180 / PI else 1) * x) else (if d then 180 / PI else 1) * x) = x.
Proof. pose proof PI_RGT_0. intros [] x; [unfold radians; field; lra | ring]. Qed.

Lemma to_sph_dir : forall o v, v <> vzero ->
  exists lon lat, to_sph o v = (lon, Some lat) /\
    drawn (o_degrees o) (o_traditional o) (o_upper o) (lon, lat) = vscale (/ norm v) v.
Proof.
  intros o v H. unfold to_sph, js_cart2sph. rewrite js_norm_row.
  assert (P : 0 < norm v).
  { pose proof (norm_nonneg v). destruct (Req_dec (norm v) 0) as [h|h]; [|lra].
    apply norm_zero_iff in h. contradiction. }
  assert (HL : lay_plane (o_traditional o) v <> vzero).
  { intros E. apply H. destruct v as [x y z]. destruct (o_traditional o); unfold lay_plane, vzero in E; simpl in E;
    injection E; intros; apply vec3_eq; simpl; lra. }
  destruct (cart2sph_dir _ HL) as (p & E & S).
  assert (HN : norm (lay_plane (o_traditional o) v) = norm v).
  { unfold norm. f_equal. destruct (o_traditional o); unfold lay_plane; vunf; simpl; ring. }
  unfold cart2sph in E. rewrite HN in *. destruct (Req_EM_T (norm v) 0) as [h|h]; [lra|]. clear h.
  injection E; clear E; intros E. subst p.
  rewrite <- lay_plane_scale in S. apply lay_plane_dir in S.
  assert (AS : forall x, asin (- x) = - asin x) by (intro; apply asin_opp).
  destruct (o_traditional o); cbn [vx vy vz lay_plane] in *;
    (destruct (o_upper o); eexists; eexists; (split; [reflexivity|]);
     unfold drawn; cbn [fst snd]; rewrite !deg_rad;
     [exact S | replace (- vy v / norm v) with (- (vy v / norm v)) by (unfold Rdiv; ring);
                try replace (- vz v / norm v) with (- (vz v / norm v)) by (unfold Rdiv; ring);
                rewrite AS, Ropp_involutive; exact S]).
Qed.

Lemma cos_asin_sq : forall t, -1 <= t <= 1 -> cos (asin t) * cos (asin t) + t * t = 1.
Proof.
  intros t H. pose proof (sincos1 (asin t)). rewrite sin_asin in H0 by lra. lra.
Qed.
Lemma cos_asin_nonneg : forall t, 0 <= cos (asin t).
Proof. intros t. destruct (asin_bound t). apply cos_ge_0; lra. Qed.

(** The [i]-th height of the outline *)
Definition height (n i : nat) : R := -1 + 4 * INR i / INR n.
Lemma height_eq : forall n i, (0 < n)%nat -> -1 + INR i * (2 / (INR n / 2)) = height n i.
Proof. intros n i H. apply lt_INR in H. simpl in H. unfold height. field. lra. Qed.
Lemma half_lt : forall n i, (i < Nat.div2 (S n))%nat <-> (2 * i < n)%nat.
Proof.
  intros n i. rewrite Nat.div2_div. split; intros H.
  - pose proof (Nat.div_mod (S n) 2 ltac:(lia)). pose proof (Nat.mod_upper_bound (S n) 2 ltac:(lia)). lia.
  - pose proof (Nat.div_mod (S n) 2 ltac:(lia)). pose proof (Nat.mod_upper_bound (S n) 2 ltac:(lia)). lia.
Qed.
Lemma height_range : forall n i, (2 * i < n)%nat -> -1 <= height n i < 1.
Proof.
  intros n i H. unfold height. assert (0 < INR n) by (apply (lt_INR 0); lia).
  apply lt_INR in H. rewrite mult_INR in H. simpl in H. pose proof (pos_INR i).
  split.
  - apply Rplus_le_reg_l with 1. unfold Rdiv. ring_simplify (1 + -1).
    replace (1 + (-1 + 4 * INR i * / INR n)) with (4 * INR i * / INR n) by ring.
    apply Rmult_le_pos; [lra|]. apply Rlt_le, Rinv_0_lt_compat; lra.
  - apply Rplus_lt_reg_l with 1. replace (1 + (-1 + 4 * INR i / INR n)) with (4 * INR i / INR n) by ring.
    apply Rmult_lt_reg_r with (INR n); auto. replace (4 * INR i / INR n * INR n) with (4 * INR i) by (field; lra). lra.
Qed.

Lemma half_nth : forall n i a b, (2 * i < n)%nat ->
  nth_error (ell_half n (Some a) (Some b)) i = Some (Some (b * cos (asin (height n i))), Some (a * height n i)).
Proof.
  intros n i a b H. unfold ell_half.
  rewrite nth_error_map. rewrite (nth_error_nth' _ 0%nat) by (rewrite seq_length; now apply half_lt).
  rewrite seq_nth by now apply half_lt. cbn [option_map]. rewrite Nat.add_0_l, height_eq by lia. reflexivity.
Qed.
Lemma half_length : forall n a b, length (ell_half n a b) = Nat.div2 (S n).
Proof. intros. unfold ell_half. now rewrite map_length, seq_length. Qed.
Lemma half_In : forall n a b p, In p (ell_half n (Some a) (Some b)) ->
  exists i, (2 * i < n)%nat /\ p = (Some (b * cos (asin (height n i))), Some (a * height n i)).
Proof.
  intros n a b p H. apply In_nth_error in H. destruct H as [i H].
  assert (L : (i < Nat.div2 (S n))%nat).
  { rewrite <- (half_length n (Some a) (Some b)). apply nth_error_Some. congruence. }
  apply half_lt in L. exists i. split; auto. rewrite half_nth in H by auto. congruence.
Qed.

Lemma ell_In : forall n a b p, In p (ell_adaptive n (Some a) (Some b)) ->
  exists c t, p = (Some (b * c), Some (a * t)) /\ c * c + t * t = 1.
Proof.
  intros n a b p H. unfold ell_adaptive in H. apply in_app_or in H. destruct H as [H|H].
  - apply half_In in H. destruct H as (i & L & E). eexists. eexists. split; [exact E|].
    apply cos_asin_sq. pose proof (height_range _ _ L). lra.
  - destruct H as [H|H].
    + exists 0, 1. split; [|ring]. rewrite <- H. rewrite Rmult_0_r, Rmult_1_r. reflexivity.
    + apply in_rev in H. apply in_map_iff in H. destruct H as ([x y] & E & H).
      assert (H' : In (x, y) (ell_half n (Some a) (Some b))).
      { destruct (ell_half n (Some a) (Some b)); [destruct H | right; exact H]. }
      apply half_In in H'. destruct H' as (i & L & E'). injection E'; intros -> ->.
      exists (- cos (asin (height n i))), (height n i). split.
      * rewrite <- E. simpl. f_equal. f_equal. ring.
      * pose proof (height_range _ _ L). pose proof (cos_asin_sq (height n i)). lra.
Qed.

(** * C115: the outline generator *)
(** Every point is on the ellipse with semiaxes [b] (first coordinate) and [a] (second). *)
Theorem C115_on_ellipse : forall n a b p, a <> 0 -> b <> 0 -> In p (ell_adaptive n (Some a) (Some b)) ->
  exists x y, p = (Some x, Some y) /\ (x / b) * (x / b) + (y / a) * (y / a) = 1.
Proof.
  intros n a b p Ha Hb H. apply ell_In in H. destruct H as (c & t & E & S).
  exists (b * c), (a * t). split; auto. rewrite <- S. field. auto.
Qed.

(** An even number of points, at least [n] of them *)
Theorem C115_count : forall n a b, (0 < n)%nat -> length (ell_adaptive n a b) = (2 * Nat.div2 (S n))%nat.
Proof.
  intros n a b H. unfold ell_adaptive. rewrite !app_length, rev_length, map_length.
  pose proof (half_length n a b) as L. assert (0 < Nat.div2 (S n))%nat by (apply half_lt; lia).
  destruct (ell_half n a b); simpl in *; lia.
Qed.

(** The heights rise evenly from [-a] on one side, reach [a], and come back through
    the same heights on the other side. *)
Theorem C115_points : forall n a b, (0 < n)%nat ->
  let h := Nat.div2 (S n) in
  let y := fun i => a * (-1 + 4 * INR i / INR n) in
  let x := fun i => b * sqrt (1 - (-1 + 4 * INR i / INR n) * (-1 + 4 * INR i / INR n)) in
  (forall i, (i < h)%nat -> nth_error (ell_adaptive n (Some a) (Some b)) i = Some (Some (x i), Some (y i))) /\
  nth_error (ell_adaptive n (Some a) (Some b)) h = Some (Some 0, Some a) /\
  (forall i, (0 < i < h)%nat ->
     nth_error (ell_adaptive n (Some a) (Some b)) (2 * h - i) = Some (Some (- x i), Some (y i))).
Proof.
  intros n a b Hn. cbv zeta.
  assert (X : forall i, (2 * i < n)%nat -> cos (asin (height n i)) =
    sqrt (1 - (-1 + 4 * INR i / INR n) * (-1 + 4 * INR i / INR n))).
  { intros i Hi. pose proof (height_range _ _ Hi) as R. fold (height n i).
    pose proof (cos_asin_sq (height n i) ltac:(lra)) as S.
    replace (1 - height n i * height n i) with (cos (asin (height n i)) * cos (asin (height n i))) by lra.
    rewrite sqrt_sq_pos; auto. apply cos_asin_nonneg. }
  pose proof (half_length n (Some a) (Some b)) as L.
  split; [|split].
  - intros i Hi. unfold ell_adaptive. rewrite nth_error_app1 by lia.
    apply half_lt in Hi. rewrite half_nth by auto. rewrite X by auto. reflexivity.
  - unfold ell_adaptive. rewrite nth_error_app2 by lia. rewrite L, Nat.sub_diag. reflexivity.
  - intros i [H1 Hi]. unfold ell_adaptive. set (h := Nat.div2 (S n)) in *.
    rewrite nth_error_app2 by lia. rewrite L.
    replace (2 * h - i - h)%nat with (S (h - i - 1)) by lia. cbn [nth_error app].
    set (t := tl (ell_half n (Some a) (Some b))).
    assert (LT : length t = (h - 1)%nat).
    { unfold t. destruct (ell_half n (Some a) (Some b)); simpl in *; lia. }
    assert (NT : nth_error t (i - 1) = Some (Some (b * cos (asin (height n i))), Some (a * height n i))).
    { pose proof (half_nth n i a b ltac:(apply half_lt; exact Hi)) as N. unfold t.
      destruct (ell_half n (Some a) (Some b)); simpl in L; [lia|].
      destruct i; [lia|]. simpl in N |- *. rewrite Nat.sub_0_r. exact N. }
    set (f := fun '(x, y) => (jneg x, y) : num * num).
    assert (LM : length (map f t) = (h - 1)%nat) by now rewrite map_length.
    set (d := (None, None) : num * num).
    rewrite (nth_error_nth' _ d) by (rewrite rev_length; lia).
    rewrite rev_nth by lia. rewrite LM.
    replace (h - 1 - S (h - i - 1))%nat with (i - 1)%nat by lia.
    erewrite nth_error_nth by (rewrite nth_error_map, NT; reflexivity).
    unfold f. simpl. rewrite X by (apply half_lt; exact Hi). reflexivity.
Qed.

(** The outline is symmetric about the axis of length [a]. *)
Theorem C115_symmetric : forall n a b x y, @In (num * num) (Some x, Some y) (ell_adaptive n (Some a) (Some b)) ->
  @In (num * num) (Some (- x), Some y) (ell_adaptive n (Some a) (Some b)).
Proof.
  intros n a b x y H. destruct (Nat.eq_dec n 0) as [z|z].
  { subst n. simpl in H. destruct H as [H|[]]. injection H; intros; subst. left. now rewrite Ropp_0. }
  assert (Hn : (0 < n)%nat) by lia.
  destruct (C115_points n a b Hn) as (P1 & P2 & P3).
  set (h := Nat.div2 (S n)) in *.
  apply In_nth_error in H. destruct H as [i H].
  assert (L : (i < 2 * h)%nat).
  { pose proof (C115_count n (Some a) (Some b) Hn) as CC. fold h in CC. rewrite <- CC.
    apply nth_error_Some. intros E; pose proof (eq_trans (eq_sym H) E); discriminate. }
  destruct (lt_eq_lt_dec i h) as [[c|c]|c].
  - destruct i as [|i].
    + rewrite P1 in H by auto. injection H; intros. subst.
      apply nth_error_In with 0%nat. rewrite P1 by auto. simpl INR.
      replace (1 - (-1 + 4 * 0 / INR n) * (-1 + 4 * 0 / INR n)) with 0.
      2:{ unfold Rdiv. ring. }
      rewrite sqrt_0. rewrite Rmult_0_r, Ropp_0. reflexivity.
    + rewrite P1 in H by auto. injection H; intros. subst.
      apply nth_error_In with (2 * h - S i)%nat. rewrite P3 by lia. reflexivity.
  - subst i. rewrite P2 in H. injection H; intros; subst. apply nth_error_In with h.
    rewrite P2. now rewrite Ropp_0.
  - assert (E : exists j, (0 < j < h)%nat /\ i = (2 * h - j)%nat) by (exists (2 * h - i)%nat; lia).
    destruct E as (j & Hj & ->). rewrite P3 in H by auto. injection H; intros; subst.
    apply nth_error_In with j. rewrite P1 by lia. now rewrite Ropp_involutive.
Qed.

(** The outline is given to d3 as the ring of a polygon.  GeoJSON wants the last
    position of a ring to repeat the first; it never does. *)
Theorem C115_ring_refuted : forall n a b, (0 < n)%nat -> a <> 0 ->
  hd_error (ell_adaptive n (Some a) (Some b)) <>
  nth_error (ell_adaptive n (Some a) (Some b)) (length (ell_adaptive n (Some a) (Some b)) - 1).
Proof.
  intros n a b Hn Ha. destruct (C115_points n a b Hn) as (P1 & P2 & P3).
  rewrite C115_count by auto. set (h := Nat.div2 (S n)) in *.
  assert (Hh : (0 < h)%nat) by (apply half_lt; lia).
  assert (IN : 0 < INR n) by (apply (lt_INR 0); lia).
  replace (hd_error (ell_adaptive n (Some a) (Some b))) with (nth_error (ell_adaptive n (Some a) (Some b)) 0)
    by (destruct (ell_adaptive n (Some a) (Some b)); reflexivity).
  rewrite P1 by auto. destruct (Nat.eq_dec h 1) as [e|e].
  - rewrite e in *. replace (2 * 1 - 1)%nat with 1%nat by lia. rewrite P2. intros E. injection E; intros E1 _.
    simpl INR in E1. apply Ha. replace (4 * 0 / INR n) with 0 in E1 by (field; lra). lra.
  - rewrite P3 by lia. intros E. injection E; intros E1 _. simpl INR in E1.
    apply Rmult_eq_reg_l in E1; auto. apply Rplus_eq_reg_l in E1.
    assert (0 < 4 * 1 / INR n). { apply Rdiv_lt_0_compat; lra. }
    replace (4 * 0 / INR n) with 0 in E1 by (field; lra). lra.
Qed.

Example C115_ex : ell_adaptive 4 (Some 2) (Some 1) =
  [(Some 0, Some (-2)); (Some 1, Some 0); (Some 0, Some 2); (Some (-1), Some 0)].
Proof.
  assert (A : asin (-1 + INR 0 * (2 / (INR 4 / 2))) = - (PI / 2)).
  { replace (-1 + INR 0 * (2 / (INR 4 / 2))) with (-(1)) by (simpl; lra). rewrite asin_opp, asin_1. lra. }
  assert (B : asin (-1 + INR 1 * (2 / (INR 4 / 2))) = 0).
  { replace (-1 + INR 1 * (2 / (INR 4 / 2))) with 0 by (simpl; lra). apply asin_0. }
  unfold ell_adaptive, ell_half. cbn [Nat.div2 seq map]. rewrite A, B, cos_neg, cos_PI2, cos_0.
  cbn [tl map rev app jmul jneg obind]. simpl INR. repeat f_equal; lra.
Qed.

(** * C116: error girdles of planes *)
Lemma fsqrt_pos : forall x, 0 <= x -> fsqrt x = Some (sqrt x).
Proof. intros x H. unfold fsqrt. destruct (Rlt_dec x 0); [lra|reflexivity]. Qed.

(** The side of the nominal plane that a sheet is put on, along the third axis *)
Definition sheet_sign (sheet : string) : R :=
  if String.eqb sheet "upper" then 1 else if String.eqb sheet "lower" then -1 else 0.
Definition side (sheet : string) (axes : mat3) (o : opts) : R :=
  sheet_sign sheet * (if o_upper o then -1 else 1) * (if Rlt_dec (vz (r2 axes)) 0 then -1 else 1).

(** The sign computed by the code, as a number *)
Definition code_sign (axes : mat3) (sheet : string) (o : opts) : num :=
  let c1 := plane_scale sheet in
  let c1 := if o_upper o then jmul c1 (Some (-1)) else c1 in
  if Rlt_dec (vz (r2 (transpose axes))) 0 then jmul c1 (Some (-1)) else c1.
Lemma plane_step_real : forall axes sheet o s0 s1 s2 x y,
  plane_step s0 s1 (Some s2) (code_sign axes sheet o) axes (Some x, Some y) =
  vm (V3 y x (s2 * side sheet axes o)) axes.
Proof.
  intros. unfold plane_step, code_sign. cbn [fst snd].
  unfold side, sheet_sign, plane_scale. cbn [transpose mT r2 vz].
  destruct (String.eqb sheet "upper"), (String.eqb sheet "lower"), (String.eqb sheet "nominal"),
    (o_upper o), (Rlt_dec (vz (r2 axes)) 0); cbn [jmul obind];
  (rewrite along_real; apply f_equal2; [|reflexivity]; apply (f_equal3 V3); ring)
  || (unfold along; rewrite <- along_real; unfold along; apply (f_equal3 V3);
      unfold sdot; cbn; ring).
Qed.
Lemma plane_value : forall h axes sheet o, 0 <= vx h -> 0 <= vy h -> 0 <= vz h ->
  plane_errors h axes sheet o =
  map (fun p => to_sph o (plane_step (Some (sqrt (vx h))) (Some (sqrt (vy h))) (Some (sqrt (vz h)))
                            (code_sign axes sheet o) axes p))
      (ell_adaptive (o_n o) (Some (sqrt (vx h))) (Some (sqrt (vy h)))).
Proof. intros. unfold plane_errors. rewrite !fsqrt_pos by auto. rewrite map_map. reflexivity. Qed.

Lemma plane_vector : forall h axes sheet o q, 0 <= vx h -> 0 <= vy h -> 0 <= vz h ->
  In q (plane_errors h axes sheet o) ->
  exists c t, c * c + t * t = 1 /\
    q = to_sph o (vm (V3 (sqrt (vx h) * t) (sqrt (vy h) * c) (sqrt (vz h) * side sheet axes o)) axes).
Proof.
  intros h axes sheet o q H0 H1 H2 H. rewrite plane_value in H by auto. apply in_map_iff in H.
  destruct H as (p & E & H). apply ell_In in H. destruct H as (c & t & -> & S).
  exists c, t. split; auto. rewrite <- E. now rewrite plane_step_real.
Qed.

Lemma unit_scaled : forall v, v <> vzero -> unit3 (vscale (/ norm v) v) /\ 0 < norm v.
Proof.
  intros v H. assert (P : 0 < norm v).
  { pose proof (norm_nonneg v). destruct (Req_dec (norm v) 0) as [h|h]; [|lra].
    apply norm_zero_iff in h. contradiction. }
  split; auto. unfold unit3. rewrite nrm2_scale, <- norm_sqr. field. lra.
Qed.
Lemma coords_scaled : forall axes k v,
  c0 axes (vscale k v) = k * c0 axes v /\ c1 axes (vscale k v) = k * c1 axes v /\ c2 axes (vscale k v) = k * c2 axes v.
Proof. intros. unfold c0, c1, c2. rewrite !dot_scale_l. auto. Qed.
Lemma vm_nonzero : forall e axes, orthonormal axes -> 0 < nrm2 e -> vm e axes <> vzero.
Proof. intros e axes H P E. rewrite <- (nrm2_vm e axes H), E in P. unfold nrm2, vzero in P. vunf. simpl in P. lra. Qed.

Lemma sqrt_sq : forall x, 0 <= x -> sqrt x * sqrt x = x.
Proof. intros. now apply sqrt_sqrt. Qed.

Lemma plane_nonzero : forall a b z c t, 0 < a -> 0 < b -> c * c + t * t = 1 -> 0 < nrm2 (V3 (a * t) (b * c) z).
Proof.
  intros a b z c t Ha Hb S. unfold nrm2. vunf. simpl.
  assert (0 < (a * t) * (a * t) + (b * c) * (b * c)).
  { apply hyp_pos. destruct (Req_dec t 0) as [e|e].
    - right. intros z0. apply Rmult_integral in z0. destruct z0; [lra|]. subst. nra.
    - left. intros z0. apply Rmult_integral in z0. destruct z0; lra. }
  pose proof (Rle_0_sqr z) as Q. unfold Rsqr in Q. lra.
Qed.

(** What a point of a girdle stands for: the nominal girdle is the plane itself, the
    other two are on the error cone, on opposite sides of the plane.  On an
    upper-hemisphere plot the sheet called upper is the one below the plane. *)
Theorem C116_girdle : forall h axes sheet o q,
  0 < vx h -> 0 < vy h -> 0 < vz h -> orthonormal axes -> In q (plane_errors h axes sheet o) ->
  exists lon lat, q = (lon, Some lat) /\
    let u := drawn (o_degrees o) (o_traditional o) (o_upper o) (lon, lat) in
    unit3 u /\
    (sheet = "nominal"%string -> dot u (r2 axes) = 0) /\
    (sheet = "upper"%string -> on_cone axes h u /\
       if o_upper o then dot u (upward axes) < 0 else 0 < dot u (upward axes)) /\
    (sheet = "lower"%string -> on_cone axes h u /\
       if o_upper o then 0 < dot u (upward axes) else dot u (upward axes) < 0).
Proof.
  intros h axes sheet o q H0 H1 H2 HO H.
  apply plane_vector in H; [|lra|lra|lra]. destruct H as (c & t & S & E).
  set (s0 := sqrt (vx h)) in *. set (s1 := sqrt (vy h)) in *. set (s2 := sqrt (vz h)) in *.
  assert (S0 : s0 * s0 = vx h /\ 0 < s0) by (split; [apply sqrt_sq; lra | apply sqrt_lt_R0; lra]).
  assert (S1 : s1 * s1 = vy h /\ 0 < s1) by (split; [apply sqrt_sq; lra | apply sqrt_lt_R0; lra]).
  assert (S2 : s2 * s2 = vz h /\ 0 < s2) by (split; [apply sqrt_sq; lra | apply sqrt_lt_R0; lra]).
  set (e := V3 (s0 * t) (s1 * c) (s2 * side sheet axes o)) in *.
  assert (NZ : vm e axes <> vzero) by (apply vm_nonzero; auto; apply plane_nonzero; tauto).
  destruct (to_sph_dir o _ NZ) as (lon & lat & E1 & D). exists lon, lat.
  split; [now rewrite E, E1|]. cbv zeta. rewrite D.
  destruct (unit_scaled _ NZ) as [U P]. split; [exact U|].
  set (k := / norm (vm e axes)) in *. assert (K : 0 < k) by now apply Rinv_0_lt_compat.
  destruct (coords_vm e axes HO) as (A0 & A1 & A2).
  destruct (coords_scaled axes k (vm e axes)) as (B0 & B1 & B2).
  rewrite A0 in B0. rewrite A1 in B1. rewrite A2 in B2. 
  change (vx e) with (s0 * t) in B0. change (vy e) with (s1 * c) in B1.
  change (vz e) with (s2 * side sheet axes o) in B2.
  assert (CONE : side sheet axes o * side sheet axes o = 1 -> on_cone axes h (vscale k (vm e axes))).
  { intros Q. unfold on_cone. rewrite B0, B1, B2. destruct S0 as [Q0 ?], S1 as [Q1 ?], S2 as [Q2 ?]. rewrite <- Q0, <- Q1, <- Q2.
    replace (k * (s2 * side sheet axes o) * (k * (s2 * side sheet axes o)) / (s2 * s2))
      with (k * k * (side sheet axes o * side sheet axes o)) by (field; lra).
    rewrite Q. rewrite <- S. field. lra. }
  assert (UP : dot (vscale k (vm e axes)) (upward axes) =
    k * s2 * (sheet_sign sheet * (if o_upper o then -1 else 1))).
  { unfold upward, side in *. unfold c2 in B2. destruct (Rlt_dec (vz (r2 axes)) 0).
    - rewrite dot_neg_r, B2. ring.
    - rewrite B2. ring. }
  assert (KS : 0 < k * s2) by (apply Rmult_lt_0_compat; tauto).
  split; [|split].
  - intros ->. fold (c2 axes (vscale k (vm e axes))). rewrite B2. unfold side, sheet_sign. simpl. ring.
  - intros ->. split.
    + apply CONE. unfold side, sheet_sign. simpl. destruct (o_upper o), (Rlt_dec (vz (r2 axes)) 0); ring.
    + rewrite UP. unfold sheet_sign. simpl. destruct (o_upper o); lra.
  - intros ->. split.
    + apply CONE. unfold side, sheet_sign. simpl. destruct (o_upper o), (Rlt_dec (vz (r2 axes)) 0); ring.
    + rewrite UP. unfold sheet_sign. simpl. destruct (o_upper o); lra.
Qed.

(** An even number of points, at least [n] *)
Theorem C116_count : forall h axes sheet o, (0 < o_n o)%nat ->
  length (plane_errors h axes sheet o) = (2 * Nat.div2 (S (o_n o)))%nat.
Proof. intros. unfold plane_errors. rewrite !map_length. now apply C115_count. Qed.

(** Products with NaN are dropped from the dot products: a negative squared length is
    drawn, without complaint, as if it were zero. *)
Definition nan_to_0 (x : num) : num := match x with None => Some 0 | _ => x end.
Lemma sdot_nan : forall x y z v, sdot [x; y; z] (row v) = sdot [nan_to_0 x; nan_to_0 y; nan_to_0 z] (row v).
Proof. intros [x|] [y|] [z|] v; unfold sdot; cbn; ring. Qed.
Lemma along_nan : forall x y z axes, along [x; y; z] axes = along [nan_to_0 x; nan_to_0 y; nan_to_0 z] axes.
Proof. intros. unfold along. apply (f_equal3 V3); apply sdot_nan. Qed.
Definition clean (p : num * num) : num * num := (nan_to_0 (fst p), nan_to_0 (snd p)).
Lemma nan_jneg : forall x, nan_to_0 (jneg x) = nan_to_0 (jneg (nan_to_0 x)).
Proof. intros [x|]; simpl; auto. now rewrite Ropp_0. Qed.
Lemma nan_jmul : forall x y, nan_to_0 (jmul x (Some y)) = jmul (nan_to_0 x) (Some y).
Proof. intros [x|] y; simpl; auto. now rewrite Rmult_0_l. Qed.
Lemma ell_clean : forall n a b, map clean (ell_adaptive n a b) = ell_adaptive n (nan_to_0 a) (nan_to_0 b).
Proof.
  intros n a b. unfold ell_adaptive. rewrite !map_app.
  assert (E : map clean (ell_half n a b) = ell_half n (nan_to_0 a) (nan_to_0 b)).
  { unfold ell_half. rewrite map_map. apply map_ext. intros i. unfold clean. cbn [fst snd].
    now rewrite !nan_jmul. }
  rewrite <- E. f_equal. f_equal. rewrite map_rev. f_equal.
  replace (tl (map clean (ell_half n a b))) with (map clean (tl (ell_half n a b)))
    by (destruct (ell_half n a b); reflexivity).
  rewrite !map_map. apply map_ext. intros [x y]. unfold clean. cbn [fst snd].
  rewrite nan_jneg. f_equal. destruct x; simpl; auto.
Qed.

Theorem C116_negative_lengths : forall h axes sheet o,
  plane_errors h axes sheet o =
  plane_errors (V3 (Rmax 0 (vx h)) (Rmax 0 (vy h)) (Rmax 0 (vz h))) axes sheet o.
Proof.
  intros h axes sheet o. unfold plane_errors. f_equal.
  assert (F : forall x, nan_to_0 (fsqrt x) = fsqrt (Rmax 0 x)).
  { intros x. unfold fsqrt, Rmax. destruct (Rle_dec 0 x), (Rlt_dec x 0), (Rlt_dec 0 0); try lra; auto.
    simpl. now rewrite sqrt_0. }
  cbn [vx vy vz]. rewrite <- !F. rewrite <- ell_clean. rewrite map_map. apply map_ext. intros p.
  unfold plane_step, clean. cbn [fst snd]. rewrite along_nan. symmetry. rewrite along_nan. symmetry.
  unfold along. f_equal; f_equal; f_equal; try (destruct (fst p); reflexivity); try (destruct (snd p); reflexivity);
  f_equal; try (destruct (fst p); reflexivity); f_equal;
  destruct (fsqrt (vz h)); try reflexivity;
  destruct (plane_scale sheet), (o_upper o), (Rlt_dec (vz (r2 (transpose axes))) 0); simpl; auto; f_equal; ring.
Qed.

(** A sheet name that is not known draws the nominal plane. *)
Theorem C116_unknown_sheet : forall h axes sheet o,
  sheet <> "upper"%string -> sheet <> "lower"%string ->
  plane_errors h axes sheet o = plane_errors h axes "nominal" o.
Proof.
  intros h axes sheet o H1 H2. unfold plane_errors. f_equal. apply map_ext. intros p.
  unfold plane_step. rewrite along_nan. symmetry. rewrite along_nan. symmetry.
  apply String.eqb_neq in H1. apply String.eqb_neq in H2. unfold plane_scale. rewrite H1, H2. simpl.
  f_equal. f_equal. f_equal. f_equal.
  destruct (String.eqb sheet "nominal"), (fsqrt (vz h)), (o_upper o), (Rlt_dec (vz (r2 axes)) 0);
  simpl; auto; f_equal; ring.
Qed.

(** The three curves of a grouped plane are in degrees whatever was asked for; the upper and
    lower one lie on the error cone on opposite sides of the nominal plane. *)
Theorem C116_combined : forall h axes o, 0 < vx h -> 0 < vy h -> 0 < vz h -> orthonormal axes ->
  let b := combined_errors h axes o in
  let dir q := match q with (lon, Some lat) => Some (drawn true (o_traditional o) (o_upper o) (lon, lat)) | _ => None end in
  let s := if o_upper o then -1 else 1 in
  (forall q, In q (b_nominal b) -> exists u, dir q = Some u /\ unit3 u /\ dot u (r2 axes) = 0) /\
  (forall q, In q (b_upper b) -> exists u, dir q = Some u /\ unit3 u /\ on_cone axes h u /\ 0 < s * dot u (upward axes)) /\
  (forall q, In q (b_lower b) -> exists u, dir q = Some u /\ unit3 u /\ on_cone axes h u /\ s * dot u (upward axes) < 0) /\
  ((0 < o_n o)%nat -> length (b_nominal b) = (2 * Nat.div2 (S (o_n o)))%nat /\ length (b_upper b) = length (b_nominal b) /\ length (b_lower b) = length (b_nominal b)).
Proof.
  intros h axes o H0 H1 H2 O b dir s. unfold b, combined_errors. cbn [b_nominal b_upper b_lower]. set (o' := mkOpts _ _ _ _).
  split; [|split; [|split]].
  - intros q I. destruct (C116_girdle _ _ _ _ _ H0 H1 H2 O I) as (lon & lat & -> & U & A & _). eexists. split; [reflexivity|]. split; [exact U|]. now apply A.
  - intros q I. destruct (C116_girdle _ _ _ _ _ H0 H1 H2 O I) as (lon & lat & -> & U & _ & A & _). destruct (A eq_refl) as [C D].
    eexists. split; [reflexivity|]. split; [exact U|]. split; [exact C|]. unfold s. cbn [o' o_upper o_degrees o_traditional] in D. destruct (o_upper o); lra.
  - intros q I. destruct (C116_girdle _ _ _ _ _ H0 H1 H2 O I) as (lon & lat & -> & U & _ & _ & A). destruct (A eq_refl) as [C D].
    eexists. split; [reflexivity|]. split; [exact U|]. split; [exact C|]. unfold s. cbn [o' o_upper o_degrees o_traditional] in D. destruct (o_upper o); lra.
  - intros N. rewrite !C116_count by exact N. auto.
Qed.

Example C116_ex : exists q, In q (plane_errors (V3 4 1 1) (M3 ex ey ez) "upper" (mkOpts 4 true true true)) /\
  orthonormal (M3 ex ey ez) /\ upward (M3 ex ey ez) = ez.
Proof.
  eexists. split; [left; reflexivity|]. split.
  - unfold orthonormal. vunf. repeat split; ring.
  - unfold upward. simpl. destruct (Rlt_dec _ _); auto. simpl in *. lra.
Qed.

(** * C117: bands drawn for a reconstructed orientation *)
Lemma unit_coords : forall axes u, orthonormal axes -> unit3 u ->
  c0 axes u * c0 axes u + c1 axes u * c1 axes u + c2 axes u * c2 axes u = 1.
Proof.
  intros axes u HO HU. unfold unit3 in HU. rewrite <- HU, <- (parseval axes u HO).
  unfold c0, c1, c2. rewrite !(dot_comm u). reflexivity.
Qed.

Lemma half_error : forall e, 0 < e < 180 ->
  let r := radians (e / 2) in e / 2 * PI / 180 = r /\ 0 < r < PI / 2 /\ 0 < tan r /\ 0 < sin r /\
  tan r * tan r * (1 - sin r * sin r) = sin r * sin r.
Proof.
  intros e H. cbv zeta. pose proof PI_RGT_0.
  assert (B : 0 < radians (e / 2) < PI / 2).
  { rewrite <- radians_0, <- radians_90. split; apply radians_lt; lra. }
  assert (C : 0 < cos (radians (e / 2))) by (apply cos_gt_0; lra).
  split; [unfold radians; field|]. split; auto.
  split; [apply tan_gt_0; lra|]. split; [apply sin_gt_0; lra|].
  pose proof (sincos1 (radians (e / 2))) as S.
  replace (1 - sin (radians (e / 2)) * sin (radians (e / 2))) with (cos (radians (e / 2)) * cos (radians (e / 2))) by lra.
  unfold tan. field. lra.
Qed.
Lemma recon_ok : forall mn mx, 0 < mn < 180 -> 0 < mx < 180 ->
  let tn := tan (radians (mn / 2)) in let tx := tan (radians (mx / 2)) in
  recon_hyp mn mx = Ok (V3 (1 / (tn * tn)) (1 / (tx * tx)) 1) /\ 0 < 1 / (tn * tn) /\ 0 < 1 / (tx * tx).
Proof.
  intros mn mx H1 H2. cbv zeta.
  destruct (half_error mn H1) as (E1 & _ & T1 & _). destruct (half_error mx H2) as (E2 & _ & T2 & _).
  unfold recon_hyp. rewrite E1, E2.
  destruct (Req_EM_T (tan (radians (mn / 2))) 0); [lra|]. destruct (Req_EM_T (tan (radians (mx / 2))) 0); [lra|].
  split; auto. split; apply Rdiv_lt_0_compat; try lra; apply Rmult_lt_0_compat; lra.
Qed.

Lemma sq_le : forall a b, 0 <= b -> a * a <= b * b -> Rabs a <= b.
Proof. intros a b H Q. apply Rsqr_le_abs_0 in Q. rewrite (Rabs_pos_eq b) in Q; auto. Qed.
Lemma sq_ge : forall a b, 0 <= b -> b * b <= a * a -> b <= Rabs a.
Proof. intros a b H Q. apply Rsqr_le_abs_0 in Q. rewrite (Rabs_pos_eq b) in Q; auto. Qed.

(** With the axis lengths computed from two angular errors in degrees, every drawn
    point of the two error sheets is between half the smaller and half the larger
    error away from the plane; the first point, over the first axis, is half the
    smaller error away, and the point over the second axis, present when the number
    of points is a multiple of four, half the larger. *)
Theorem C117_band : forall mn mx axes sheet o, 0 < mn -> mn <= mx -> mx < 180 -> orthonormal axes ->
  sheet = "upper"%string \/ sheet = "lower"%string ->
  exists h, recon_hyp mn mx = Ok h /\
  (forall q, In q (plane_errors h axes sheet o) -> exists lon lat, q = (lon, Some lat) /\
     let u := drawn (o_degrees o) (o_traditional o) (o_upper o) (lon, lat) in
     sin (radians (mn / 2)) <= Rabs (dot u (r2 axes)) <= sin (radians (mx / 2))) /\
  ((0 < o_n o)%nat -> exists lon lat, nth_error (plane_errors h axes sheet o) 0 = Some (lon, Some lat) /\
     let u := drawn (o_degrees o) (o_traditional o) (o_upper o) (lon, lat) in
     dot u (r1 axes) = 0 /\ Rabs (dot u (r2 axes)) = sin (radians (mn / 2))) /\
  (forall m, (0 < m)%nat -> o_n o = (4 * m)%nat ->
     exists lon lat, nth_error (plane_errors h axes sheet o) m = Some (lon, Some lat) /\
     let u := drawn (o_degrees o) (o_traditional o) (o_upper o) (lon, lat) in
     dot u (r0 axes) = 0 /\ Rabs (dot u (r2 axes)) = sin (radians (mx / 2))).
Proof.
  intros mn mx axes sheet o H1 H2 H3 HO HS.
  destruct (recon_ok mn mx ltac:(lra) ltac:(lra)) as (E & P0 & P1).
  eexists. split; [exact E|].
  destruct (half_error mn ltac:(lra)) as (_ & B1 & T1 & S1 & I1).
  destruct (half_error mx ltac:(lra)) as (_ & B2 & T2 & S2 & I2).
  assert (TT : tan (radians (mn / 2)) <= tan (radians (mx / 2))).
  { destruct (Req_dec mn mx) as [->|n]; [lra|]. apply Rlt_le, tan_increasing; try lra.
    apply radians_lt; lra. }
  set (tn := tan (radians (mn / 2))) in *. set (tx := tan (radians (mx / 2))) in *.
  set (sn := sin (radians (mn / 2))) in *. set (sx := sin (radians (mx / 2))) in *.
  set (h := V3 (1 / (tn * tn)) (1 / (tx * tx)) 1) in *.
  assert (G : forall q, In q (plane_errors h axes sheet o) -> exists lon lat, q = (lon, Some lat) /\
     let u := drawn (o_degrees o) (o_traditional o) (o_upper o) (lon, lat) in
     unit3 u /\ c0 axes u * c0 axes u * (tn * tn) + c1 axes u * c1 axes u * (tx * tx) = c2 axes u * c2 axes u).
  { intros q Hq. destruct (C116_girdle h axes sheet o q P0 P1 ltac:(simpl; lra) HO Hq) as (lon & lat & Eq & U & _ & A & B).
    exists lon, lat. split; auto. cbv zeta. split; auto.
    assert (C : on_cone axes h (drawn (o_degrees o) (o_traditional o) (o_upper o) (lon, lat)))
      by (destruct HS; [apply A | apply B]; auto).
    unfold on_cone in C. unfold h in C. cbn [vx vy vz] in C.
    rewrite <- (Rmult_1_r (c2 axes _ * c2 axes _)). rewrite <- Rinv_1. unfold Rdiv in C at 5. rewrite <- C. field. lra. }
  assert (ND : forall i c t, 
     nth_error (ell_adaptive (o_n o) (Some (sqrt (vx h))) (Some (sqrt (vy h)))) i =
       Some (Some (sqrt (vy h) * c), Some (sqrt (vx h) * t)) -> c * c + t * t = 1 ->
     exists lon lat k, 0 < k /\ nth_error (plane_errors h axes sheet o) i = Some (lon, Some lat) /\
      let u := drawn (o_degrees o) (o_traditional o) (o_upper o) (lon, lat) in
      c0 axes u = k * (sqrt (vx h) * t) /\ c1 axes u = k * (sqrt (vy h) * c)).
  { intros i c t Ei Q.
    set (e := V3 (sqrt (vx h) * t) (sqrt (vy h) * c) (sqrt (vz h) * side sheet axes o)).
    assert (NZ : vm e axes <> vzero).
    { apply vm_nonzero; auto. apply plane_nonzero; auto; apply sqrt_lt_R0; auto. }
    destruct (to_sph_dir o _ NZ) as (lon & lat & E1 & D). destruct (unit_scaled _ NZ) as [_ P].
    exists lon, lat, (/ norm (vm e axes)). split; [now apply Rinv_0_lt_compat|]. split.
    - rewrite plane_value by (simpl; lra). rewrite nth_error_map.
      replace (nth_error _ i) with (Some ((Some (sqrt (vy h) * c), Some (sqrt (vx h) * t)) : num * num)) by (symmetry; exact Ei).
      cbn [option_map]. rewrite plane_step_real. fold e. now rewrite E1.
    - cbv zeta. rewrite D. destruct (coords_scaled axes (/ norm (vm e axes)) (vm e axes)) as (-> & -> & _).
      destruct (coords_vm e axes HO) as (-> & -> & _). split; reflexivity. }
  split; [|split].
  - intros q Hq. destruct (G q Hq) as (lon & lat & Eq & U & C). exists lon, lat. split; auto. cbv zeta.
    set (u := drawn _ _ _ _) in *. pose proof (unit_coords axes u HO U) as PV.
    fold (c2 axes u). set (x := c0 axes u) in *. set (y := c1 axes u) in *. set (z := c2 axes u) in *.
    assert (Q : tn * tn <= tx * tx) by nra.
    assert (0 <= x * x) by nra. assert (0 <= y * y) by nra.
    split; [apply sq_ge; [lra|] | apply sq_le; [lra|]].
    + assert (tn * tn * (1 - z * z) <= z * z) by nra. nra.
    + assert (z * z <= tx * tx * (1 - z * z)) by nra. nra.
  - intros Hn. destruct (C115_points (o_n o) (sqrt (vx h)) (sqrt (vy h)) Hn) as (Pt & _).
    specialize (Pt 0%nat ltac:(apply half_lt; lia)). simpl INR in Pt.
    replace (4 * 0 / INR (o_n o)) with 0 in Pt by (unfold Rdiv; ring).
    replace (1 - (-1 + 0) * (-1 + 0)) with 0 in Pt by ring. rewrite sqrt_0 in Pt.
    replace (-1 + 0) with (-1) in Pt by ring.
    destruct (ND 0%nat 0 (-1) Pt ltac:(ring)) as (lon & lat & k & K & Nt & C0 & C1).
    exists lon, lat. split; auto. cbv zeta in *.
    destruct (G _ (nth_error_In _ _ Nt)) as (lon' & lat' & Eq & U & C). injection Eq; intros <- <-.
    set (u := drawn _ _ _ _) in *. pose proof (unit_coords axes u HO U) as PV.
    fold (c1 axes u) (c2 axes u). rewrite Rmult_0_r, Rmult_0_r in C1. split; auto. rewrite C1 in *.
    assert (Q : c2 axes u * c2 axes u = sn * sn) by nra.
    apply Rsqr_eq_abs_0 in Q. rewrite Q. apply Rabs_pos_eq. lra.
  - intros m Hm En. destruct (C115_points (o_n o) (sqrt (vx h)) (sqrt (vy h)) ltac:(lia)) as (Pt & _).
    specialize (Pt m ltac:(apply half_lt; lia)).
    assert (Z : -1 + 4 * INR m / INR (o_n o) = 0).
    { rewrite En, mult_INR. simpl INR. assert (0 < INR m) by (apply (lt_INR 0); lia). field. lra. }
    rewrite Z in Pt. replace (1 - 0 * 0) with 1 in Pt by ring. rewrite sqrt_1 in Pt.
    destruct (ND m 1 0 Pt ltac:(ring)) as (lon & lat & k & K & Nt & C0 & C1).
    exists lon, lat. split; auto. cbv zeta in *.
    destruct (G _ (nth_error_In _ _ Nt)) as (lon' & lat' & Eq & U & C). injection Eq; intros <- <-.
    set (u := drawn _ _ _ _) in *. pose proof (unit_coords axes u HO U) as PV.
    fold (c0 axes u) (c2 axes u). rewrite Rmult_0_r, Rmult_0_r in C0. split; auto. rewrite C0 in *.
    assert (Q : c2 axes u * c2 axes u = sx * sx) by nra.
    apply Rsqr_eq_abs_0 in Q. rewrite Q. apply Rabs_pos_eq. lra.
Qed.

(** An error of zero degrees is not drawable: its axis is infinite. *)
Theorem C117_zero_error : forall mx, recon_hyp 0 mx = NonFinite.
Proof.
  intros mx. unfold recon_hyp. replace (0 / 2 * PI / 180) with 0 by (unfold Rdiv; ring). rewrite tan_0.
  destruct (Req_EM_T 0 0); [reflexivity|lra].
Qed.
Example C117_ex : 0 < 10 /\ 10 <= 20 /\ 20 < 180 /\ orthonormal (M3 ex ez (vneg ey)).
Proof. unfold orthonormal. vunf. repeat split; lra. Qed.

Print Assumptions C115_on_ellipse.
Print Assumptions C115_count.
Print Assumptions C115_points.
Print Assumptions C115_symmetric.
Print Assumptions C115_ring_refuted.
Print Assumptions C116_girdle.
Print Assumptions C116_count.
Print Assumptions C116_negative_lengths.
Print Assumptions C116_unknown_sheet.
Print Assumptions C116_combined.
Print Assumptions C117_band.
Print Assumptions C117_zero_error.
