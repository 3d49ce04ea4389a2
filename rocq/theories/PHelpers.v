(** Property C229: helpers of the stereonet module. *)
From Coq Require Import Reals Lra Lia List Arith.
From Verif Require Import RVec Trig SpecPlane MPca LPca LAngles MAxes LAxes PAxes MSphere MRecon LRecon MStereo MHelpers.
Import ListNotations.
Notation length := List.length.
Open Scope R_scope.

(** the k-th point of the rows of an array *)
Definition column (rows : list R * list R * list R) (k : nat) : option vec3 :=
  let '(x, y, z) := rows in
  match nth_error x k, nth_error y k, nth_error z k with Some a, Some b, Some c => Some (V3 a b c) | _, _, _ => None end.

Lemma single_row : forall p, sph2cart_rows [p] = ([- vy (sph2cart p)], [- vz (sph2cart p)], [vx (sph2cart p)]).
Proof. intros p. reflexivity. Qed.

(** A single plotted direction comes back turned: by a half turn about the vertical from the
    outline of a plane, mirrored from the outline of a pole, otherwise with exchanged axes. *)
Theorem C229_single : forall v, unit3 v ->
  exists p q r, cart2sph (lay_plane true v) = Some p /\ cart2sph (lay_normal true v) = Some q /\ cart2sph (lay_plane false v) = Some r /\
    column (sph2cart_rows [p]) 0 = Some (V3 (- vx v) (- vy v) (vz v)) /\
    column (sph2cart_rows [q]) 0 = Some (V3 (- vx v) (vy v) (vz v)) /\
    column (sph2cart_rows [r]) 0 = Some (V3 (- vx v) (- vz v) (- vy v)).
Proof.
  intros v U. assert (UU := U). unfold unit3, nrm2, dot in U.
  destruct (cart2sph_spec (lay_plane true v)) as (p & P1 & P2). { unfold unit3, lay_plane, nrm2, dot. cbn [vx vy vz]. lra. }
  destruct (cart2sph_spec (lay_normal true v)) as (q & Q1 & Q2). { unfold unit3, lay_normal, nrm2, dot. cbn [vx vy vz]. lra. }
  destruct (cart2sph_spec (lay_plane false v)) as (r & R1 & R2). { unfold unit3, lay_plane, nrm2, dot. cbn [vx vy vz]. lra. }
  exists p, q, r. split; [exact P1|]. split; [exact Q1|]. split; [exact R1|]. rewrite !single_row, P2, Q2, R2.
  unfold column, lay_plane, lay_normal. cbn [nth_error vx vy vz]. rewrite Ropp_involutive. auto.
Qed.

Lemma nth_error_firstn : forall {A} k n (l : list A), (k < n)%nat -> nth_error (firstn n l) k = nth_error l k.
Proof. intros A k. induction k; intros n l H; destruct n, l; try lia; simpl; auto. apply IHk. lia. Qed.
Lemma nth_error_skipn : forall {A} n k (l : list A), nth_error (skipn n l) k = nth_error l (n + k).
Proof. intros A n. induction n; intros k l; [reflexivity|]. destruct l; simpl; [now destruct k|apply IHn]. Qed.
Lemma nth_error_roll : forall l k, (k < length l)%nat ->
  nth_error (roll_back l) k = nth_error l (if Nat.eqb (S k) (length l) then 0 else S k).
Proof.
  intros [|a t] k H; [simpl in H; lia|]. simpl roll_back. cbn [length] in *. destruct (Nat.eqb_spec (S k) (S (length t))) as [E|E].
  - rewrite nth_error_app2 by lia. replace (k - length t)%nat with 0%nat by lia. reflexivity.
  - rewrite nth_error_app1 by lia. reflexivity.
Qed.

(** Of several points each comes back as the next one, without exchange of axes, the last as
    the first with it. *)
Theorem C229_arrays : forall pts k p, nth_error pts k = Some p ->
  column (sph2cart_rows pts) k =
  match nth_error pts (S k) with
  | Some q => let v := sph2cart q in Some (V3 (- vx v) (- vy v) (vz v))
  | None => match nth_error pts 0 with
            | Some q => let v := sph2cart q in Some (V3 (- vy v) (- vz v) (vx v))
            | None => None
            end
  end.
Proof.
  intros pts k p E. set (n := length pts). assert (K : (k < n)%nat) by (apply nth_error_Some; congruence).
  unfold column, sph2cart_rows. fold n. set (w := map sph2cart pts). assert (W : length w = n) by apply map_length.
  set (flat := map vx w ++ map vy w ++ map vz w). assert (LF : length flat = (3 * n)%nat) by (unfold flat; rewrite !app_length, !map_length; lia).
  rewrite !nth_error_map, !nth_error_firstn, !nth_error_skipn by exact K. rewrite !nth_error_roll by lia. rewrite LF.
  destruct (Nat.eqb_spec (S k) (3 * n)) as [|_]; [lia|]. destruct (Nat.eqb_spec (S (n + k)) (3 * n)) as [|_]; [lia|].
  assert (X : forall j, (j < n)%nat -> nth_error flat j = option_map vx (nth_error w j)).
  { intros j J. unfold flat. rewrite nth_error_app1 by (rewrite map_length; lia). apply nth_error_map. }
  assert (Y : forall j, (j < n)%nat -> nth_error flat (n + j) = option_map vy (nth_error w j)).
  { intros j J. unfold flat. rewrite nth_error_app2 by (rewrite map_length; lia). rewrite map_length, W, nth_error_app1 by (rewrite map_length; lia).
    replace (n + j - n)%nat with j by lia. apply nth_error_map. }
  assert (Z : forall j, (j < n)%nat -> nth_error flat (2 * n + j) = option_map vz (nth_error w j)).
  { intros j J. unfold flat. rewrite nth_error_app2 by (rewrite map_length; lia). rewrite map_length, W, nth_error_app2 by (rewrite map_length; lia).
    rewrite map_length, W. replace (2 * n + j - n - n)%nat with j by lia. apply nth_error_map. }
  destruct (Nat.eq_dec (S k) n) as [L|L].
  - replace (nth_error pts (S k)) with (@None (R * R)) by (symmetry; apply nth_error_None; fold n; lia).
    destruct (Nat.eqb_spec (S (2 * n + k)) (3 * n)) as [_|]; [|lia].
    replace (S k) with (n + 0)%nat by lia. replace (S (n + k)) with (2 * n + 0)%nat by lia.
    rewrite Y, Z by lia. rewrite (X 0%nat) by lia. unfold w. rewrite !nth_error_map.
    destruct (nth_error pts 0) as [q|]; reflexivity.
  - destruct (Nat.eqb_spec (S (2 * n + k)) (3 * n)) as [|_]; [lia|].
    replace (S (n + k)) with (n + S k)%nat by lia. replace (S (2 * n + k)) with (2 * n + S k)%nat by lia.
    rewrite X, Y, Z by lia. unfold w. rewrite !nth_error_map.
    destruct (nth_error pts (S k)) as [q|] eqn:EQ; [reflexivity|]. apply nth_error_None in EQ. fold n in EQ. lia.
Qed.

(** The unit quaternion of the comment is a vector of length one only by accident. *)
Theorem C229_quaternion : forall v angle, unit3 v ->
  (unit3 (quaternion v angle) <-> cos (angle / 2) = 0 \/ cos (angle / 2) + sin (angle / 2) * (vx v + vy v + vz v) = 0) /\
  quaternion v 0 = V3 1 1 1 /\ unit3 (quaternion v PI).
Proof.
  intros v angle U. assert (UU := U). unfold unit3, nrm2, dot in U.
  assert (N : forall t, dot (quaternion v t) (quaternion v t) = 1 + 2 * cos (t / 2) * (cos (t / 2) + sin (t / 2) * (vx v + vy v + vz v))).
  { intros t. pose proof (sincos1 (t / 2)) as SC. unfold quaternion, dot, vadd, vscale. cbn [vx vy vz]. set (c := cos (t / 2)) in *. set (s := sin (t / 2)) in *.
    transitivity (3 * (c * c) + 2 * (c * s * (vx v + vy v + vz v)) + s * s * (vx v * vx v + vy v * vy v + vz v * vz v)); [ring|]. rewrite U. lra. }
  split; [|split].
  - unfold unit3, nrm2. rewrite N. split; intros H.
    + apply Rmult_integral. lra.
    + destruct H as [-> | ->]; ring.
  - unfold quaternion. replace (0 / 2) with 0 by field. rewrite cos_0, sin_0. apply vec3_eq; vunf; ring.
  - unfold unit3, nrm2. rewrite N. rewrite cos_PI2. ring.
Qed.

(** Rescaling by the statistic lengthens the axes and leaves every angle between them, so the
    confidence level does not reach the angular errors. *)
Theorem C229_scale : forall st d c x2, chi2_ppf st c 3 = Some x2 -> 0 < x2 -> 0 < vx d -> 0 < vy d -> 0 <= vz d ->
  exists h, scale_errors st d c = Some h /\ vx h * vx h = x2 * vx d /\ vy h * vy h = x2 * vy d /\ vz h * vz h = x2 * vz d /\
    0 < vx h /\ 0 < vy h /\ 0 <= vz h /\
    angular_errors d = Some (atan2 (vz h) (vx h), atan2 (vz h) (vy h)).
Proof.
  intros st d c x2 E X D0 D1 D2. unfold scale_errors. rewrite E. cbn [obind].
  assert (P0 := Rmult_lt_0_compat _ _ X D0). assert (P1 := Rmult_lt_0_compat _ _ X D1). assert (P2 : 0 <= x2 * vz d) by (apply Rmult_le_pos; lra).
  rewrite vsqrt_some by (cbn [vscale vx vy vz]; lra). eexists. split; [reflexivity|]. cbn [vscale vx vy vz].
  rewrite !sqrt_sqrt by lra. repeat (split; [reflexivity|]). split; [now apply sqrt_lt_R0|]. split; [now apply sqrt_lt_R0|]. split; [apply sqrt_pos|].
  unfold angular_errors. rewrite vsqrt_some by lra. cbn [obind vx vy vz]. rewrite !sqrt_mult by lra.
  now rewrite !atan2_scale by (now apply sqrt_lt_R0).
Qed.

Example C229_ex : unit3 (V3 (3/5) 0 (4/5)) /\ nth_error [(0, 0); (1, 1)] 1 = Some (1, 1) /\
  chi2_ppf (const_stats 7) (95/100) 3 = Some 7 /\
  unit3 ez /\ cos (PI / 2) = 0.
Proof. unfold unit3, nrm2, dot, ez. cbn [vx vy vz nth_error]. split; [lra|]. split; [reflexivity|]. split; [reflexivity|]. split; [lra|exact cos_PI2]. Qed.

Print Assumptions C229_single.
Print Assumptions C229_arrays.
Print Assumptions C229_quaternion.
Print Assumptions C229_scale.
