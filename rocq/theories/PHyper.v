(** Properties C74-C77, C104, C105: hyperbolic error bands. *)
From Coq Require Import Reals Lra Lia List Arith Bool Psatz.
From Verif Require Import RVec Trig LNum SpecConics MConics LConics LSlice MHyper MAxes LAxes.
Import ListNotations.
Notation length := List.length.
Open Scope R_scope.

(** ** the hyperbola *)
Lemma cosh_pos : forall x, 0 < cosh x.
Proof. intros x. unfold cosh. pose proof (exp_pos x). pose proof (exp_pos (- x)). lra. Qed.
Lemma cosh_sinh : forall x, cosh x * cosh x - sinh x * sinh x = 1.
Proof.
  intros x. unfold cosh, sinh. assert (E : exp x * exp (- x) = 1) by (rewrite <- exp_plus, Rplus_opp_r; apply exp_0).
  nra.
Qed.
Lemma branch_spec : forall A x, 0 < fst A -> 0 < snd A ->
  0 < branch A x /\ branch A x * branch A x / (snd A * snd A) - x * x / (fst A * fst A) = 1.
Proof.
  intros [a b] x HA HB. cbn [fst snd] in *. unfold branch. cbn [fst snd]. split.
  - apply Rmult_lt_0_compat; auto. apply cosh_pos.
  - pose proof (cosh_sinh (arcsinh (x / a))) as H. rewrite sinh_arcsinh in H.
    set (c := cosh (arcsinh (x / a))) in *.
    replace (b * c * (b * c) / (b * b)) with (c * c) by (field; lra).
    replace (x * x / (a * a)) with (x / a * (x / a)) by (field; lra). exact H.
Qed.
Lemma branch_sq : forall A x, 0 < fst A -> 0 < snd A ->
  branch A x * branch A x = snd A * snd A + (snd A / fst A * x) * (snd A / fst A * x).
Proof.
  intros [a b] x HA HB. destruct (branch_spec (a, b) x HA HB) as [_ H]. cbn [fst snd] in *.
  set (y := branch (a, b) x) in *. apply (f_equal (fun r => r * (b * b))) in H.
  replace ((y * y / (b * b) - x * x / (a * a)) * (b * b)) with (y * y - (b / a * x) * (b / a * x)) in H by (field; lra). lra.
Qed.

(** ** the conic in the view plane *)
Lemma diag_inverse : forall n d, (forall i, (i < n)%nat -> d i <> 0) -> is_inverse n (diagn d) (diagn (fun i => / d i)).
Proof.
  intros n d H. assert (G : forall e f, (forall i, (i < n)%nat -> e i * f i = 1) -> meq n n (mulm n (diagn e) (diagn f)) idn).
  { intros e f EF i j I J. unfold mulm, diagn.
    rewrite (sumn_ext n _ (fun l => (if (l =? i)%nat then 1 else 0) * (e i * (if (l =? j)%nat then f l else 0)))).
    - rewrite sumn_delta by auto. unfold idn. destruct (Nat.eqb_spec i j); [auto|ring].
    - intros l L. rewrite (Nat.eqb_sym i l). destruct (Nat.eqb_spec l i); ring. }
  split; apply G; intros i I; specialize (H i I); field; auto.
Qed.
Lemma diag_singular : forall n d i, (i < n)%nat -> d i = 0 -> ~ invertible n (diagn d).
Proof.
  intros n d i I Z INV. pose proof (invertible_kernel n (diagn d) (fun l => idn l i) INV) as K.
  assert (X : veq n (fun l => idn l i) (fun _ => 0)).
  { apply K. intros l L. unfold mulv, diagn. apply sumn_0. intros j J. unfold idn.
    destruct (Nat.eqb_spec l j), (Nat.eqb_spec j i); subst; rewrite ?Z; ring. }
  specialize (X i I). cbv beta in X. unfold idn in X. rewrite Nat.eqb_refl in X. lra.
Qed.
Lemma augment_diag : forall n d, meq (S n) (S n) (augment_tensor n (diagn d)) (diagn (fun i => if (i <? n)%nat then d i else 1)).
Proof.
  intros n d i j I J. unfold augment_tensor, diagn, idn.
  destruct (Nat.ltb_spec i n), (Nat.ltb_spec j n), (Nat.eqb_spec i j); simpl; auto; lia.
Qed.
Lemma dual_diag : forall inv n h, numpy_inv inv -> length h = n ->
  (Forall (fun x => x <> 0) h -> exists D, dual inv n (augment_tensor n (diagn (vec_of h))) = Ok D /\
     meq (S n) (S n) D (diagn (fun i => if (i <? n)%nat then / nth i h 0 else 1))) /\
  (~ Forall (fun x => x <> 0) h -> dual inv n (augment_tensor n (diagn (vec_of h))) = Raise LinAlgError).
Proof.
  intros inv n h HI L. set (d := fun i => if (i <? n)%nat then vec_of h i else 1).
  pose proof (augment_diag n (vec_of h)) as AD. fold d in AD.
  unfold dual. pose proof (HI (S n) (augment_tensor n (diagn (vec_of h)))) as H. split; intros F.
  - assert (ND : forall i, (i < S n)%nat -> d i <> 0).
    { intros i I. unfold d. destruct (Nat.ltb_spec i n); [|lra]. rewrite Forall_forall in F. apply F.
      unfold vec_of. apply nth_In. lia. }
    pose proof (diag_inverse (S n) d ND) as DI.
    destruct (inv (S n) (augment_tensor n (diagn (vec_of h)))) as [D|].
    + exists D. split; auto. eapply meq_trans; [apply (inverse_unique (S n) _ _ _ _ AD H DI)|].
      intros i j I J. unfold diagn, d, vec_of. destruct (Nat.eqb_spec i j); auto. destruct (Nat.ltb_spec i n); [auto|field].
    + exfalso. apply H. exists (diagn (fun i => / d i)). eapply inverse_ext; [apply meq_sym, AD|apply meq_refl|exact DI].
  - destruct (inv (S n) (augment_tensor n (diagn (vec_of h)))) as [D|]; auto. exfalso.
    apply F. rewrite Forall_forall. intros x X E. apply (In_nth h x 0) in X. destruct X as (i & I & N).
    apply (diag_singular (S n) d i ltac:(lia)).
    + unfold d, vec_of. destruct (Nat.ltb_spec i n); [congruence|lia].
    + exists D. eapply inverse_ext; [exact AD|apply meq_refl|exact H].
Qed.

(** a direction in the world, seen in the principal frame of the fit *)
Definition in_frame (T : option matn) (a : vec3) : vec3 :=
  match T with
  | None => a
  | Some T => let row i := T i 0%nat * vx a + T i 1%nat * vy a + T i 2%nat * vz a in V3 (row 0%nat) (row 1%nat) (row 2%nat)
  end.
(** squared reciprocal length of the ellipsoid x^2/h0 + y^2/h1 + z^2/h2 = 1 in direction a *)
Definition recip (h : vec3) (a : vec3) : R := vx a * vx a / vx h + vy a * vy a / vy h + vz a * vz a / vz h.

Definition list_of (v : vec3) : list R := [vx v; vy v; vz v].
Lemma view_axes_ok : forall inv h T a0 a1, numpy_inv inv -> vx h <> 0 -> vy h <> 0 -> vz h <> 0 ->
  let q0 := recip h (in_frame T a0) in let q1 := recip h (in_frame T a1) in
  q0 <> 0 -> q1 <> 0 ->
  view_axes inv (list_of h) T (Some [list_of a0; list_of a1]) = Ok (sqrt (/ Rabs q0), sqrt (/ Rabs q1)).
Proof.
  intros inv h T a0 a1 HI H0 H1 H2 q0 q1 Q0 Q1. unfold view_axes, view_conic.
  destruct (dual_diag inv 3 (list_of h) HI eq_refl) as [A _].
  destruct A as (D & ED & MD). { repeat constructor; auto. }
  change (length (list_of h)) with 3%nat. rewrite ED. cbn [Nat.eqb vec3_of_list list_of rbind].
  set (TT := match T with Some T0 => T0 | None => idn end).
  match goal with |- context[plane_offset 3 ?p] => set (pl := p) end.
  match goal with |- context[slice_matrix 3 ?ax ?p] => set (pt := p) end.
  set (V0 := V3 (vx a0) (vy a0) (vz a0)). set (V1 := V3 (vx a1) (vy a1) (vz a1)).
  set (m := slice_matrix 3 [vec_of3 V0; vec_of3 V1] pt).
  set (con := transform 3 (transform 3 D (augment_tensor 3 TT)) m).
  assert (DI : forall j v, (j < 2)%nat -> v = nth j [V0; V1] vzero -> con j j = recip h (in_frame T v)).
  { intros j v J EV. unfold con. rewrite transform_entries. unfold transform at 1, solve_mat. rewrite bil_transform.
    rewrite (bil_ext 4 D _ _ _ _ _ MD (fun i _ => eq_refl) (fun i _ => eq_refl)).
    assert (X : veq 4 (mulv 4 (augment_tensor 3 TT) (fun k => m k j)) (fun i => match i with O => vx (in_frame T v) | 1%nat => vy (in_frame T v) | 2%nat => vz (in_frame T v) | _ => 0 end)).
    { subst v. intros i I. unfold mulv, m, slice_matrix, augment_tensor, TT, in_frame.
      destruct j as [|[|j]]; [| |lia]; destruct i as [|[|[|[|i]]]]; try lia; destruct T; unfold idn; simpl; ring. }
    rewrite (bil_ext 4 _ _ _ _ _ _ (meq_refl _ _ _) X X). unfold bil, diagn, recip, list_of. simpl. field. auto. }
  assert (C0 : con 0%nat 0%nat = q0) by (rewrite (DI 0%nat V0); auto; unfold V0; destruct a0; reflexivity).
  assert (C1 : con 1%nat 1%nat = q1) by (rewrite (DI 1%nat V1); auto; unfold V1; destruct a1; reflexivity).
  unfold semiaxes. cbn [seq existsb]. rewrite C0, C1.
  destruct (Req_EM_T q0 0); [contradiction|]. destruct (Req_EM_T q1 0); [contradiction|].
  cbn [orb rbind]. change (2 <? 2)%nat with false. cbv iota. now rewrite C0, C1.
Qed.

(** ** apparent dip *)
Lemma vec_of_app : forall l z i, vec_of (l ++ [z]) i = if (i <? length l)%nat then vec_of l i else if (i =? length l)%nat then z else 0.
Proof.
  intros l z i. unfold vec_of. destruct (Nat.ltb_spec i (length l)); [now rewrite app_nth1|].
  rewrite app_nth2 by lia. destruct (Nat.eqb_spec i (length l)) as [->|]; [now rewrite Nat.sub_diag|].
  destruct (i - length l)%nat as [|[|k]] eqn:E; auto; lia.
Qed.
(** length of the projection on the horizontal over the length *)
Definition horizontal_share (l : list R) (z : R) : option R :=
  let hh := sumn (length l) (fun i => nth i l 0 * nth i l 0) in
  if Req_EM_T hh 0 then None else Some (sqrt (hh / (hh + z * z))).
Lemma cos_angle_share : forall l z, cos_angle (l ++ [z]) (zero_last (l ++ [z])) = horizontal_share l z.
Proof.
  intros l z. unfold cos_angle, zero_last, horizontal_share. rewrite removelast_last, app_length, Nat.add_1_r.
  set (n := length l). set (hh := sumn n (fun i => nth i l 0 * nth i l 0)).
  assert (S1 : forall w, sumn (S n) (fun i => vec_of (l ++ [z]) i * vec_of (l ++ [w]) i) = hh + z * w).
  { intros w. cbn [sumn]. rewrite !vec_of_app. fold n. rewrite Nat.ltb_irrefl, Nat.eqb_refl. f_equal.
    apply sumn_ext. intros i I. rewrite !vec_of_app. fold n. destruct (Nat.ltb_spec i n); [reflexivity|lia]. }
  assert (S2 : sumn (S n) (fun i => vec_of (l ++ [0]) i * vec_of (l ++ [0]) i) = hh).
  { cbn [sumn]. rewrite !vec_of_app. fold n. rewrite Nat.ltb_irrefl, Nat.eqb_refl. rewrite Rmult_0_l, Rplus_0_r.
    apply sumn_ext. intros i I. rewrite !vec_of_app. fold n. destruct (Nat.ltb_spec i n); [reflexivity|lia]. }
  unfold normn, dotn. rewrite !S1, S2, Rmult_0_r, Rplus_0_r.
  assert (HH : 0 <= hh) by (apply sumn_nonneg; intros; nra).
  pose proof (sqrt_pos (hh + z * z)). pose proof (sqrt_pos hh).
  destruct (Req_EM_T hh 0) as [e|e].
  - rewrite e. rewrite sqrt_0, Rmult_0_r. destruct (Req_EM_T 0 0); [reflexivity|lra].
  - assert (P : 0 < hh) by lra. assert (P' : 0 < hh + z * z) by nra.
    assert (0 < sqrt hh) by now apply sqrt_lt_R0. assert (0 < sqrt (hh + z * z)) by now apply sqrt_lt_R0.
    destruct (Req_EM_T (sqrt (hh + z * z) * sqrt hh) 0) as [k|k]; [exfalso; nra|]. f_equal.
    rewrite sqrt_div_alt by auto. rewrite <- (sqrt_sqrt hh) at 1 by lra. field. lra.
Qed.
Lemma share_bounds : forall l z c, horizontal_share l z = Some c -> 0 < c <= 1.
Proof.
  intros l z c. unfold horizontal_share. set (hh := sumn _ _). assert (0 <= hh) by (apply sumn_nonneg; intros; nra).
  destruct (Req_EM_T hh 0); [discriminate|]. intros E. injection E as <-.
  assert (0 < hh / (hh + z * z)) by (apply Rdiv_lt_0_compat; nra). split; [now apply sqrt_lt_R0|].
  rewrite <- sqrt_1. apply sqrt_le_1_alt. apply Rmult_le_reg_r with (hh + z * z); [nra|]. unfold Rdiv.
  rewrite Rmult_assoc, Rinv_l by nra. nra.
Qed.
Lemma correction_spec : forall a0 rest, a0 <> [] -> exists c s,
  apparent_dip_correction (Some (a0 :: rest)) = Ok ((c, s), (- s, c)) /\ c * c + s * s = 1 /\ 0 < c /\ 0 <= s.
Proof.
  intros a0 rest NE. destruct (exists_last NE) as (l & z & ->). unfold apparent_dip_correction.
  destruct (l ++ [z]) as [|x y] eqn:E; [now destruct l|]. rewrite <- E. rewrite cos_angle_share.
  destruct (horizontal_share l z) as [c|] eqn:C.
  - pose proof (share_bounds l z c C) as B. destruct (Rlt_dec (/ 1000000000000) (1 - c * c)) as [g|g].
    + destruct (Rlt_dec c 0); [lra|]. exists c, (sqrt (1 - c * c)). split; auto.
      rewrite sqrt_sqrt by nra. repeat split; try lra. apply sqrt_pos.
    + exists 1, 0. rewrite Ropp_0. repeat split; lra.
  - exists 1, 0. rewrite Ropp_0. repeat split; lra.
Qed.
(** * C76 *)
Theorem C76_rotation : forall axes, match axes with
  | Some (a0 :: _) => a0 <> [] -> exists m11 m12 m21 m22, apparent_dip_correction axes = Ok ((m11, m12), (m21, m22)) /\
      m11 * m11 + m12 * m12 = 1 /\ m21 * m21 + m22 * m22 = 1 /\ m11 * m21 + m12 * m22 = 0 /\ m11 * m22 - m12 * m21 = 1
  | Some [] => apparent_dip_correction axes = Raise IndexError
  | None => apparent_dip_correction axes = Raise TypeError
  end.
Proof.
  intros [[|a0 rest]|]; try reflexivity. intros NE. destruct (correction_spec a0 rest NE) as (c & s & E & N & _).
  exists c, s, (- s), c. split; auto. repeat split; lra.
Qed.
(** the correction depends on the first axis only, and not on its horizontal direction *)
Theorem C76_angle : forall x y z rest, x * x + y * y <> 0 ->
  exists c s, apparent_dip_correction (Some ([x; y; z] :: rest)) = Ok ((c, s), (- s, c)) /\
  (c = sqrt ((x * x + y * y) / (x * x + y * y + z * z)) /\ s = sqrt (z * z / (x * x + y * y + z * z)) \/
   c = 1 /\ s = 0 /\ z * z / (x * x + y * y + z * z) <= / 1000000000000).
Proof.
  intros x y z rest NZ. unfold apparent_dip_correction. change [x; y; z] with ([x; y] ++ [z]) at 1 2. rewrite cos_angle_share.
  unfold horizontal_share. simpl length. rewrite sumn2. cbn [nth].
  destruct (Req_EM_T (x * x + y * y) 0); [contradiction|]. set (hh := x * x + y * y) in *.
  assert (P : 0 < hh) by (unfold hh in *; nra).
  set (c := sqrt (hh / (hh + z * z))).
  assert (CC : c * c = hh / (hh + z * z)) by (apply sqrt_sqrt; apply Rlt_le, Rdiv_lt_0_compat; nra).
  assert (DD : 1 - c * c = z * z / (hh + z * z)) by (rewrite CC; field; nra).
  pose proof (sqrt_pos (hh / (hh + z * z))) as CP. fold c in CP.
  destruct (Rlt_dec (/ 1000000000000) (1 - c * c)) as [g|g].
  - destruct (Rlt_dec c 0); [lra|]. exists c, (sqrt (1 - c * c)). split; auto. left. split; auto. now rewrite DD.
  - exists 1, 0. rewrite Ropp_0. split; auto. right. repeat split; auto. rewrite <- DD. lra.
Qed.
Example C76_ex : 3 * 3 + 0 * 0 <> 0. Proof. lra. Qed.

(** * C77 *)
Theorem C77_sign_lost : forall t rest, - PI / 2 < t < PI / 2 -> exists c s,
  apparent_dip_correction (Some ([cos t; 0; sin t] :: rest)) = Ok ((c, s), (- s, c)) /\
  ((/ 1000000000000 < sin t * sin t -> c = cos t /\ s = Rabs (sin t)) /\
   (sin t * sin t <= / 1000000000000 -> c = 1 /\ s = 0)) /\
  ((c, s) = (cos t, sin t) <-> t = 0 \/ 0 < t /\ / 1000000000000 < sin t * sin t).
Proof.
  intros t rest B. assert (C : 0 < cos t) by (apply cos_gt_0; lra).
  pose proof (sin2_cos2 t) as SC. unfold Rsqr in SC.
  unfold apparent_dip_correction. change [cos t; 0; sin t] with ([cos t; 0] ++ [sin t]) at 1 2. rewrite cos_angle_share.
  unfold horizontal_share. simpl length. rewrite sumn2. cbn [nth].
  destruct (Req_EM_T (cos t * cos t + 0 * 0) 0); [nra|].
  replace ((cos t * cos t + 0 * 0) / (cos t * cos t + 0 * 0 + sin t * sin t)) with (Rsqr (cos t)).
  2:{ unfold Rsqr. replace (cos t * cos t + 0 * 0 + sin t * sin t) with 1 by lra. field. }
  rewrite sqrt_Rsqr by lra. replace (1 - cos t * cos t) with (sin t * sin t) by lra.
  assert (SG : (0 < t -> 0 < sin t) /\ (t < 0 -> sin t < 0)).
  { split; intros. - apply sin_gt_0; lra. - apply sin_lt_0_var; lra. }
  destruct (Rlt_dec (/ 1000000000000) (sin t * sin t)) as [g|g].
  - destruct (Rlt_dec (cos t) 0); [lra|]. exists (cos t), (sqrt (sin t * sin t)). split; auto.
    change (sin t * sin t) with (Rsqr (sin t)). rewrite sqrt_Rsqr_abs. unfold Rsqr. split; [split; intros; [auto|lra]|].
    destruct (Rtotal_order t 0) as [h|[->|h]].
    + pose proof (proj2 SG h). rewrite Rabs_left by auto. split; intros X.
      * injection X. intros. lra. * destruct X as [X|[X _]]; lra.
    + rewrite sin_0 in g. lra.
    + pose proof (proj1 SG h). rewrite Rabs_pos_eq by lra. split; auto.
  - exists 1, 0. rewrite Ropp_0. split; auto. split; [split; intros; [lra|auto]|]. split; intros X.
    + injection X. intros X1 X2. left. destruct (Rtotal_order t 0) as [h|[h|h]]; auto; [pose proof (proj2 SG h)|pose proof (proj1 SG h)]; lra.
    + destruct X as [->|[_ X]]; [now rewrite cos_0, sin_0|lra].
Qed.
(** opposite tilts are corrected by the same rotation *)
Theorem C77_even : forall t rest, apparent_dip_correction (Some ([cos t; 0; sin t] :: rest)) =
  apparent_dip_correction (Some ([cos (- t); 0; sin (- t)] :: rest)).
Proof.
  intros t rest. rewrite cos_neg, sin_neg. unfold apparent_dip_correction.
  change [cos t; 0; sin t] with ([cos t; 0] ++ [sin t]) at 1 2. change [cos t; 0; - sin t] with ([cos t; 0] ++ [- sin t]) at 1 2.
  rewrite !cos_angle_share. unfold horizontal_share. replace (- sin t * - sin t) with (sin t * sin t) by ring. reflexivity.
Qed.
Example C77_ex : - PI / 2 < - PI / 4 < PI / 2. Proof. pose proof PI_RGT_0. lra. Qed.

(** * C74 *)
Definition plus2 (p q : R * R) : R * R := (fst p + fst q, snd p + snd q).
Definition mean_of (m : option (R * R)) : R * R := match m with Some m => m | None => (0, 0) end.
(** the band: nominal line through the mean in direction (c, s), edges at distance y
    on either side with y^2/A1^2 - x^2/A0^2 = 1 and A_i^2 = 1/|recip| *)
Theorem C74_band : forall inv h T a0 a1 xs means reverse, numpy_inv inv ->
  vx h <> 0 -> vy h <> 0 -> vz h <> 0 ->
  let q0 := recip h (in_frame T a0) in let q1 := recip h (in_frame T a1) in
  q0 <> 0 -> q1 <> 0 ->
  exists c s (y : R -> R), c * c + s * s = 1 /\
  (forall x, 0 < y x /\ y x * y x * Rabs q1 - x * x * Rabs q0 = 1) /\
  hyperbolic_errors inv (list_of h) xs T (Some [list_of a0; list_of a1]) means reverse = Ok
   (map (fun x => plus2 (mean_of means) (x * c, x * s)) xs,
    map (fun x => plus2 (mean_of means) (x * c + y x * s, x * s - y x * c)) xs,
    rev (map (fun x => plus2 (mean_of means) (x * c - y x * s, x * s + y x * c)) xs)).
Proof.
  intros inv h T a0 a1 xs means reverse HI H0 H1 H2 q0 q1 Q0 Q1.
  pose proof (view_axes_ok inv h T a0 a1 HI H0 H1 H2 Q0 Q1) as VA. fold q0 q1 in VA.
  set (A := (sqrt (/ Rabs q0), sqrt (/ Rabs q1))) in *.
  assert (P0 : 0 < Rabs q0) by now apply Rabs_pos_lt. assert (P1 : 0 < Rabs q1) by now apply Rabs_pos_lt.
  assert (A0 : 0 < fst A) by (apply sqrt_lt_R0; now apply Rinv_0_lt_compat).
  assert (A1 : 0 < snd A) by (apply sqrt_lt_R0; now apply Rinv_0_lt_compat).
  destruct (correction_spec (list_of a0) [list_of a1] ltac:(discriminate)) as (c & s & E & N & _).
  exists c, (if reverse then - s else s), (branch A). split; [destruct reverse; lra|]. split.
  - intros x. destruct (branch_spec A x A0 A1) as [B1 B2]. split; auto.
    assert (S0 : fst A * fst A = / Rabs q0) by (apply sqrt_sqrt; left; now apply Rinv_0_lt_compat).
    assert (S1 : snd A * snd A = / Rabs q1) by (apply sqrt_sqrt; left; now apply Rinv_0_lt_compat).
    rewrite S0, S1 in B2. rewrite <- B2. field. split; lra.
  - unfold hyperbolic_errors. rewrite VA. cbn [rbind]. rewrite E. cbn [rbind]. f_equal. f_equal; [f_equal|].
    + apply map_ext. intros x. unfold plus2, mean_of, vmul2, trn2. destruct reverse, means as [[mx my]|]; cbn [fst snd]; f_equal; ring.
    + apply map_ext. intros x. unfold plus2, mean_of, vmul2, trn2. destruct reverse, means as [[mx my]|]; cbn [fst snd]; f_equal; ring.
    + f_equal. apply map_ext. intros x. unfold plus2, mean_of, vmul2, trn2. destruct reverse, means as [[mx my]|]; cbn [fst snd]; f_equal; ring.
Qed.
(** views that contain the third principal axis: the edges are on the error
    hyperboloid z^2/h2 - x^2/h0 - y^2/h1 = 1 *)
Theorem C74_hyperboloid : forall h T a0 a1 x y, 0 < vx h -> 0 < vy h -> 0 < vz h ->
  let u := in_frame T a0 in let w := in_frame T a1 in
  vz u = 0 -> vx w = 0 -> vy w = 0 ->
  y * y * Rabs (recip h w) - x * x * Rabs (recip h u) = 1 ->
  let p := vadd (vscale x u) (vscale y w) in
  vz p * vz p / vz h - vx p * vx p / vx h - vy p * vy p / vy h = 1.
Proof.
  intros h T a0 a1 x y H0 H1 H2 u w ZU XW YW E p.
  assert (D : forall t k, 0 < k -> 0 <= t * t / k) by (intros t k K; apply Rmult_le_pos; [nra|left; now apply Rinv_0_lt_compat]).
  rewrite !Rabs_pos_eq in E.
  - rewrite <- E. unfold p, recip. vunf. rewrite ZU, XW, YW. field. repeat split; lra.
  - unfold recip. pose proof (D (vx u) (vx h) H0). pose proof (D (vy u) (vy h) H1). pose proof (D (vz u) (vz h) H2). lra.
  - unfold recip. pose proof (D (vx w) (vx h) H0). pose proof (D (vy w) (vy h) H1). pose proof (D (vz w) (vz h) H2). lra.
Qed.
(** oblique views: the edge is off the hyperboloid *)
Theorem C74_oblique_refuted : exists h a0 a1, 0 < vx h /\ 0 < vy h /\ 0 < vz h /\ unit3 a0 /\ unit3 a1 /\ dot a0 a1 = 0 /\
  exists x y, 0 < y /\ y * y * Rabs (recip h (in_frame None a1)) - x * x * Rabs (recip h (in_frame None a0)) = 1 /\
  let p := vadd (vscale x a0) (vscale y a1) in
  vz p * vz p / vz h - vx p * vx p / vx h - vy p * vy p / vy h <> 1.
Proof.
  exists (V3 4 1 1), (V3 (4/5) 0 (3/5)), (V3 (-3/5) 0 (4/5)). unfold unit3. repeat split; try (vunf; lra).
  exists 0, (sqrt (100 / 73)).
  assert (S : sqrt (100 / 73) * sqrt (100 / 73) = 100 / 73) by (apply sqrt_sqrt; lra).
  split; [apply sqrt_lt_R0; lra|]. unfold in_frame, recip. vunf. split.
  - rewrite S. rewrite Rabs_pos_eq; lra.
  - set (r := sqrt (100 / 73)) in *. intros E.
    replace ((0 * (3 / 5) + r * (4 / 5)) * (0 * (3 / 5) + r * (4 / 5)) / 1 - (0 * (4 / 5) + r * (-3 / 5)) * (0 * (4 / 5) + r * (-3 / 5)) / 4 - (0 * 0 + r * 0) * (0 * 0 + r * 0) / 1)
      with (r * r * (55 / 100)) in E by field. rewrite S in E. lra.
Qed.
(** symmetric about the nominal line and narrowest at the centre *)
Theorem C74_narrowest : forall inv h T a0 a1 means reverse x1 x2 n1 n2 b1 b2 t1 t2, numpy_inv inv ->
  vx h <> 0 -> vy h <> 0 -> vz h <> 0 -> recip h (in_frame T a0) <> 0 -> recip h (in_frame T a1) <> 0 ->
  hyperbolic_errors inv (list_of h) [x1; x2] T (Some [list_of a0; list_of a1]) means reverse = Ok ([n1; n2], [b1; b2], [t2; t1]) ->
  let dist2 p q := (fst p - fst q) * (fst p - fst q) + (snd p - snd q) * (snd p - snd q) in
  fst b1 + fst t1 = 2 * fst n1 /\ snd b1 + snd t1 = 2 * snd n1 /\ dist2 b1 n1 = dist2 t1 n1 /\
  (Rabs x1 < Rabs x2 <-> dist2 t1 n1 < dist2 t2 n2).
Proof.
  intros inv h T a0 a1 means reverse x1 x2 n1 n2 b1 b2 t1 t2 HI H0 H1 H2 Q0 Q1 E dist2.
  destruct (C74_band inv h T a0 a1 [x1; x2] means reverse HI H0 H1 H2 Q0 Q1) as (c & s & y & N & Y & E').
  rewrite E in E'. cbn [map rev app] in E'. injection E'. clear E E'. intros; subst. unfold dist2, plus2. cbn [fst snd].
  set (m := mean_of means). split; [ring|]. split; [ring|]. split; [ring|].
  replace ((fst m + (x1 * c - y x1 * s) - (fst m + x1 * c)) * (fst m + (x1 * c - y x1 * s) - (fst m + x1 * c)) +
    (snd m + (x1 * s + y x1 * c) - (snd m + x1 * s)) * (snd m + (x1 * s + y x1 * c) - (snd m + x1 * s))) with (y x1 * y x1 * (c * c + s * s)) by ring.
  replace ((fst m + (x2 * c - y x2 * s) - (fst m + x2 * c)) * (fst m + (x2 * c - y x2 * s) - (fst m + x2 * c)) +
    (snd m + (x2 * s + y x2 * c) - (snd m + x2 * s)) * (snd m + (x2 * s + y x2 * c) - (snd m + x2 * s))) with (y x2 * y x2 * (c * c + s * s)) by ring.
  rewrite N, !Rmult_1_r. destruct (Y x1) as [_ Y1], (Y x2) as [_ Y2].
  assert (P0 := Rabs_pos_lt _ Q0). assert (P1 := Rabs_pos_lt _ Q1).
  set (k0 := Rabs (recip h (in_frame T a0))) in *. set (k1 := Rabs (recip h (in_frame T a1))) in *.
  assert (SQ : x1 * x1 < x2 * x2 <-> Rabs x1 < Rabs x2).
  { split; intros L. - apply Rsqr_lt_abs_0. exact L. - apply Rsqr_lt_abs_1. exact L. }
  rewrite <- SQ. split; intros L.
  - apply Rmult_lt_reg_r with k1; auto. assert (x1 * x1 * k0 < x2 * x2 * k0) by now apply Rmult_lt_compat_r. lra.
  - apply Rmult_lt_reg_r with k0; auto. assert (y x1 * y x1 * k1 < y x2 * y x2 * k1) by now apply Rmult_lt_compat_r. lra.
Qed.
Example C74_ex : recip (V3 9 4 1) (in_frame None (V3 1 0 0)) <> 0 /\ recip (V3 9 4 1) (in_frame None (V3 0 0 1)) <> 0.
Proof. unfold recip, in_frame. vunf. split; lra. Qed.

(** * C75 asymptotes *)
(** the band at distance x along a horizontal principal axis *)
Definition band (inv : inv_fn) (h a : vec3) (x y : R) : Prop :=
  hyperbolic_errors inv (list_of h) [x] None (Some [list_of a; list_of ez]) None false =
  Ok ([(x, 0)], [(x, - y)], [(x, y)]).
Lemma tan_abs_le : forall t e, - PI / 2 < t < PI / 2 -> 0 <= e < PI / 2 -> (Rabs t <= e <-> tan t * tan t <= tan e * tan e).
Proof.
  intros t e Ht He.
  assert (M : forall u v, 0 <= u < PI / 2 -> 0 <= v < PI / 2 -> (u <= v <-> tan u * tan u <= tan v * tan v)).
  { intros u v U V. assert (TU : 0 <= tan u).
    { destruct (proj1 U) as [u0|<-]; [left; apply tan_gt_0; lra|rewrite tan_0; lra]. }
    assert (TV : 0 <= tan v).
    { destruct (proj1 V) as [v0|<-]; [left; apply tan_gt_0; lra|rewrite tan_0; lra]. }
    split; intros L.
    - destruct L as [L| -> ]; [|lra]. assert (tan u < tan v) by (apply tan_increasing; lra). nra.
    - apply Rnot_lt_le. intros L'. assert (tan v < tan u) by (apply tan_increasing; lra). nra. }
  unfold Rabs. destruct (Rcase_abs t).
  - rewrite (M (- t) e) by lra. rewrite tan_neg. replace (- tan t * - tan t) with (tan t * tan t) by ring. tauto.
  - apply M; lra.
Qed.
Lemma band_width : forall inv h a hx, numpy_inv inv -> 0 < vx h -> 0 < vy h -> 0 < vz h ->
  (a = ex /\ hx = vx h \/ a = ey /\ hx = vy h) -> forall x y, band inv h a x y <->
  0 < y /\ y * y = vz h + (sqrt (vz h) / sqrt hx * x) * (sqrt (vz h) / sqrt hx * x).
Proof.
  intros inv h a hx HI H0 H1 H2 CASE x y.
  assert (HX : 0 < hx) by (destruct CASE as [[_ ->]|[_ ->]]; auto).
  assert (Q0 : recip h (in_frame None a) = / hx).
  { destruct CASE as [[-> ->]|[-> ->]]; unfold recip, in_frame, ex, ey; vunf; field; repeat split; lra. }
  assert (Q1 : recip h (in_frame None ez) = / vz h) by (unfold recip, in_frame, ez; vunf; field; repeat split; lra).
  assert (I0 := Rinv_0_lt_compat _ HX). assert (I1 := Rinv_0_lt_compat _ H2).
  assert (SX : 0 < sqrt hx) by now apply sqrt_lt_R0. assert (SZ : 0 < sqrt (vz h)) by now apply sqrt_lt_R0.
  unfold band, hyperbolic_errors.
  assert (VA := view_axes_ok inv h None a ez HI ltac:(lra) ltac:(lra) ltac:(lra)). cbv zeta in VA. rewrite Q0, Q1 in VA.
  rewrite VA by lra. cbn [rbind].
  assert (AD : apparent_dip_correction (Some [list_of a; list_of ez]) = Ok ((1, 0), (0, 1))).
  { unfold apparent_dip_correction. unfold list_of at 1. change (list_of a) with ([vx a; vy a] ++ [vz a]).
    rewrite cos_angle_share. unfold horizontal_share. simpl length. rewrite sumn2. cbn [nth].
    assert (HH : vx a * vx a + vy a * vy a = 1 /\ vz a = 0) by (destruct CASE as [[-> _]|[-> _]]; unfold ex, ey; simpl; lra).
    destruct HH as [-> ->]. destruct (Req_EM_T 1 0); [lra|]. replace (1 / (1 + 0 * 0)) with 1 by field. rewrite sqrt_1.
    destruct (Rlt_dec (/ 1000000000000) (1 - 1 * 1)); [lra|reflexivity]. }
  rewrite AD. cbn [rbind map rev app]. rewrite !Rabs_pos_eq by lra. rewrite !Rinv_inv by lra.
  set (A := (sqrt hx, sqrt (vz h))). pose proof (branch_sq A x SX SZ) as SQ. destruct (branch_spec A x SX SZ) as [BP _].
  assert (SQ' : branch A x * branch A x = vz h + (sqrt (vz h) / sqrt hx * x) * (sqrt (vz h) / sqrt hx * x)).
  { rewrite SQ. unfold A; cbn [fst snd]. rewrite sqrt_sqrt by lra. reflexivity. }
  clear SQ. unfold vmul2. cbn [fst snd]. set (w := branch A x) in *. clearbody w.
  replace (x * 1 + 0 * 0 + 0) with x by ring. replace (x * 0 + 0 * 1 + 0) with 0 by ring.
  replace (x * 1 + w * -1 * 0 + 0) with x by ring. replace (x * 0 + w * -1 * 1 + 0) with (- w) by ring.
  replace (x * 1 + w * 0 + 0) with x by ring. replace (x * 0 + w * 1 + 0) with w by ring.
  split.
  - intros E. injection E. intros. subst y. auto.
  - intros [YP YS]. assert (y = w) by nra. now subst y.
Qed.
Theorem C75_asymptotes : forall inv h e0 e1, numpy_inv inv -> 0 < vx h -> 0 < vy h -> 0 < vz h ->
  angular_errors h = Some (e0, e1) ->
  forall a e, (a = ex /\ e = e0 \/ a = ey /\ e = e1) ->
  (forall x, exists y, band inv h a x y) /\
  (forall t, - PI / 2 < t < PI / 2 -> ((forall x y, band inv h a x y -> Rabs (x * tan t) < y) <-> Rabs t <= e)) /\
  (forall eps, 0 < eps -> exists X, forall x y, X < x -> band inv h a x y -> e < atan (y / x) < e + eps).
Proof.
  intros inv h e0 e1 HI H0 H1 H2 AE a e CASE.
  unfold angular_errors, vsqrt, fsqrt in AE.
  destruct (Rlt_dec (vx h) 0); [lra|]. destruct (Rlt_dec (vy h) 0); [lra|]. destruct (Rlt_dec (vz h) 0); [lra|].
  cbn [obind vx vy vz] in AE. injection AE as E0 E1.
  assert (SX := sqrt_lt_R0 _ H0). assert (SY := sqrt_lt_R0 _ H1). assert (SZ := sqrt_lt_R0 _ H2).
  assert (K : exists hx, 0 < hx /\ (a = ex /\ hx = vx h \/ a = ey /\ hx = vy h) /\ e = atan (sqrt (vz h) / sqrt hx)).
  { destruct CASE as [[Ha He]|[Ha He]]; [exists (vx h)|exists (vy h)]; (split; [auto|split; [auto|]]); subst e;
      [rewrite <- E0|rewrite <- E1]; apply atan2_pos; auto. }
  destruct K as (hx & HX & CA & He). pose proof (band_width inv h a hx HI H0 H1 H2 CA) as BW.
  assert (SHX := sqrt_lt_R0 _ HX). set (k := sqrt (vz h) / sqrt hx) in *.
  assert (KP : 0 < k) by (apply Rdiv_lt_0_compat; auto).
  assert (EB : 0 <= e < PI / 2).
  { rewrite He. pose proof (atan_bound k). split; [|lra]. rewrite <- atan_0. left. now apply atan_increasing. }
  assert (TE : tan e = k) by (rewrite He; apply tan_atan).
  split; [|split].
  - intros x. exists (sqrt (vz h + (k * x) * (k * x))). apply BW. pose proof (Rle_0_sqr (k * x)) as Q. unfold Rsqr in Q. split.
    + apply sqrt_lt_R0. lra. + apply sqrt_sqrt. lra.
  - intros t Ht. rewrite (tan_abs_le t e Ht EB), TE. split.
    + intros A. apply Rnot_lt_le. intros L. set (g := tan t * tan t - k * k). assert (G : 0 < g) by (unfold g; lra).
      set (x := sqrt (vz h / g)). assert (XX : x * x = vz h / g) by (apply sqrt_sqrt; left; now apply Rdiv_lt_0_compat).
      set (y := sqrt (vz h + (k * x) * (k * x))). pose proof (Rle_0_sqr (k * x)) as Q. unfold Rsqr in Q.
      assert (YY : y * y = vz h + (k * x) * (k * x)) by (apply sqrt_sqrt; lra).
      assert (YP : 0 < y) by (apply sqrt_lt_R0; lra).
      specialize (A x y). assert (LT : Rabs (x * tan t) < y) by (apply A, BW; split; auto).
      assert (SQ : (x * tan t) * (x * tan t) < y * y).
      { apply Rsqr_lt_abs_1. rewrite (Rabs_pos_eq y) by lra. exact LT. }
      assert (X2 : x * x * g = vz h) by (rewrite XX; field; lra). unfold g in X2. nra.
    + intros L x y B. apply BW in B. destruct B as [YP YY].
      rewrite <- (Rabs_pos_eq y) by lra. apply Rsqr_lt_abs_0. unfold Rsqr. rewrite YY.
      pose proof (Rle_0_sqr x) as Q. unfold Rsqr in Q.
      assert (x * x * (tan t * tan t) <= x * x * (k * k)) by (apply Rmult_le_compat_l; auto). nra.
  - intros eps EP.
    assert (LOW : forall x y, 0 < x -> 0 < y -> y * y = vz h + (k * x) * (k * x) -> e < atan (y / x)).
    { intros x y XP YP YY. rewrite He. apply atan_increasing. apply Rmult_lt_reg_r with x; auto. unfold Rdiv.
      rewrite Rmult_assoc, Rinv_l, Rmult_1_r by lra. nra. }
    destruct (Rlt_dec (e + eps) (PI / 2)) as [L|L].
    + set (k' := tan (e + eps)). assert (KK : k < k') by (rewrite <- TE; apply tan_increasing; lra).
      set (g := k' * k' - k * k). assert (G : 0 < g) by (unfold g; nra).
      exists (sqrt (vz h / g)). intros x y XB B. apply BW in B. destruct B as [YP YY].
      pose proof (sqrt_pos (vz h / g)). assert (XP : 0 < x) by lra. split; [now apply LOW|].
      assert (AT : atan k' = e + eps) by (unfold k'; apply atan_tan; lra). rewrite <- AT. apply atan_increasing.
      apply Rmult_lt_reg_r with x; auto. unfold Rdiv. rewrite Rmult_assoc, Rinv_l, Rmult_1_r by lra.
      assert (XX : vz h / g < x * x).
      { rewrite <- (sqrt_sqrt (vz h / g)) by (left; now apply Rdiv_lt_0_compat). nra. }
      assert (X2 : vz h < x * x * g).
      { apply Rmult_lt_reg_r with (/ g); [now apply Rinv_0_lt_compat|]. rewrite Rmult_assoc, Rinv_r by lra. unfold Rdiv in XX. lra. }
      unfold g in X2. assert (Y2 : y * y < (k' * x) * (k' * x)) by nra. assert (0 < k' * x) by nra. nra.
    + exists 0. intros x y XP B. apply BW in B. destruct B as [YP YY]. split; [now apply LOW|].
      pose proof (atan_bound (y / x)). lra.
Qed.
Example C75_ex : exists e0 e1, angular_errors (V3 9 4 1) = Some (e0, e1).
Proof.
  unfold angular_errors, vsqrt, fsqrt. cbn [vx vy vz]. destruct (Rlt_dec 9 0); [lra|]. destruct (Rlt_dec 4 0); [lra|]. destruct (Rlt_dec 1 0); [lra|].
  cbn [obind]. eauto.
Qed.

(** * C104 two-dimensional bands *)
Theorem C104_needs_axes : forall inv h0 h1 xs T means reverse, numpy_inv inv -> h0 <> 0 -> h1 <> 0 ->
  hyperbolic_errors inv [h0; h1] xs T None means reverse = Raise TypeError.
Proof.
  intros inv h0 h1 xs T means reverse HI H0 H1. unfold hyperbolic_errors, view_axes, view_conic.
  destruct (dual_diag inv 2 [h0; h1] HI eq_refl) as [A _]. destruct A as (D & ED & MD); [repeat constructor; auto|].
  change (length [h0; h1]) with 2%nat. rewrite ED. cbn [Nat.eqb rbind]. unfold semiaxes. cbn [seq existsb].
  rewrite !MD by lia. unfold diagn. simpl.
  destruct (Req_EM_T (/ h0) 0) as [e|_]; [exfalso; now apply (Rinv_neq_0_compat h0)|].
  destruct (Req_EM_T (/ h1) 0) as [e|_]; [exfalso; now apply (Rinv_neq_0_compat h1)|]. reflexivity.
Qed.
Theorem C104_values : forall inv h0 h1 xs T a0 rest, numpy_inv inv -> 0 < h0 -> 0 < h1 -> a0 <> [] ->
  exists ys c s, hyperbola_values (h0, h1) xs = Some ys /\ c * c + s * s = 1 /\
  hyperbolic_errors inv [h0; h1] xs T (Some (a0 :: rest)) None false =
   Ok (map (fun x => (x * c, x * s)) xs,
       map (fun '(x, y) => (x * c + y * s, x * s - y * c)) (combine xs ys),
       rev (map (fun '(x, y) => (x * c - y * s, x * s + y * c)) (combine xs ys))) /\
  Forall2 (fun x y => 0 < y /\ y * y / h1 - x * x / h0 = 1) xs ys.
Proof.
  intros inv h0 h1 xs T a0 rest HI H0 H1 NE. unfold hyperbola_values. cbn [fst snd].
  destruct (Rlt_dec h0 0); [lra|]. destruct (Rlt_dec h1 0); [lra|]. destruct (Req_EM_T h0 0); [lra|].
  destruct (correction_spec a0 rest NE) as (c & s & E & N & _).
  exists (map (branch (sqrt h0, sqrt h1)) xs), c, s. split; auto. split; auto.
  unfold hyperbolic_errors, view_axes, view_conic.
  destruct (dual_diag inv 2 [h0; h1] HI eq_refl) as [A _]. destruct A as (D & ED & MD); [repeat constructor; lra|].
  change (length [h0; h1]) with 2%nat. rewrite ED. cbn [Nat.eqb rbind]. unfold semiaxes. cbn [seq existsb].
  assert (I0 := Rinv_0_lt_compat _ H0). assert (I1 := Rinv_0_lt_compat _ H1).
  assert (D0 : D 0%nat 0%nat = / h0) by (rewrite MD by lia; reflexivity).
  assert (D1 : D 1%nat 1%nat = / h1) by (rewrite MD by lia; reflexivity).
  rewrite D0, D1. destruct (Req_EM_T (/ h0) 0); [lra|]. destruct (Req_EM_T (/ h1) 0); [lra|]. cbn [orb rbind].
  change (2 <? 2)%nat with false. cbv iota. cbn [rbind]. rewrite D0, D1. rewrite !Rabs_pos_eq by lra. rewrite !Rinv_inv by lra.
  rewrite E. cbn [rbind]. set (A := (sqrt h0, sqrt h1)). split.
  - assert (CM : forall f : R * R -> R * R, map f (combine xs (map (branch A) xs)) = map (fun x => f (x, branch A x)) xs).
    { intros f. clear. induction xs; simpl; auto. now rewrite IHxs. }
    rewrite !CM. unfold vmul2. cbn [fst snd]. f_equal. f_equal; [f_equal|].
    + apply map_ext. intros x. f_equal; ring.
    + apply map_ext. intros x. f_equal; ring.
    + f_equal. apply map_ext. intros x. f_equal; ring.
  - assert (A0 : 0 < fst A) by now apply sqrt_lt_R0. assert (A1 : 0 < snd A) by now apply sqrt_lt_R0.
    assert (S0 : fst A * fst A = h0) by (apply sqrt_sqrt; lra). assert (S1 : snd A * snd A = h1) by (apply sqrt_sqrt; lra).
    clear - A0 A1 S0 S1. induction xs; cbn [map]; constructor; auto. destruct (branch_spec A a A0 A1) as [B1 B2]. rewrite S0, S1 in B2. auto.
Qed.
Example C104_ex : [1; 0; 0] <> []. Proof. discriminate. Qed.

(** * C105 a zero axis *)
Theorem C105_zero_axis : forall inv hyp xs T axes means reverse, numpy_inv inv -> In 0 hyp ->
  hyperbolic_errors inv hyp xs T axes means reverse = Raise LinAlgError.
Proof.
  intros inv hyp xs T axes means reverse HI Z. unfold hyperbolic_errors, view_axes, view_conic.
  destruct (dual_diag inv (length hyp) hyp HI eq_refl) as [_ B]. rewrite B; [reflexivity|].
  intros F. rewrite Forall_forall in F. now apply (F 0 Z).
Qed.
Example C105_ex : In 0 [9; 4; 0]. Proof. simpl. auto. Qed.

Print Assumptions C76_rotation.
Print Assumptions C76_angle.
Print Assumptions C77_sign_lost.
Print Assumptions C77_even.
Print Assumptions C74_band.
Print Assumptions C74_hyperboloid.
Print Assumptions C74_oblique_refuted.
Print Assumptions C74_narrowest.
Print Assumptions C75_asymptotes.
Print Assumptions C104_needs_axes.
Print Assumptions C104_values.
Print Assumptions C105_zero_axis.
