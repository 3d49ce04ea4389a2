(** C209: the shadow of an ellipse in the plane. *)
From Coq Require Import Reals List Arith Lra Lia Psatz.
From Verif Require Import RVec Trig LNum MConics SpecConics LConics PConics PConics2 PConics3 MShadow SpecShadow.
Import ListNotations.
Open Scope R_scope.

Lemma sumn1' : forall f, sumn 1 f = f 0%nat. Proof. intros. unfold sumn. simpl. ring. Qed.
Lemma sumn2' : forall f, sumn 2 f = f 0%nat + f 1%nat. Proof. intros. unfold sumn. simpl. ring. Qed.
Lemma sumn3' : forall f, sumn 3 f = f 0%nat + f 1%nat + f 2%nat. Proof. intros. unfold sumn. simpl. ring. Qed.

Definition any_inv : inv_fn := fun n A => match inverse_dec n A with inleft (exist _ B _) => Some B | inright _ => None end.
Lemma any_inv_ok : numpy_inv any_inv.
Proof. intros n A. unfold any_inv. destruct (inverse_dec n A) as [[B H]|H]; exact H. Qed.

Section ellipse.
Set Default Proof Using "All".
Variables a b l : R.
Hypotheses (A0 : 0 < a) (B0 : 0 < b) (L0 : b < l).
Let Q := offset_ellipse a b l.
Lemma ell_entries : Q 0%nat 0%nat = 1 / (a * a) /\ Q 1%nat 1%nat = 1 / (b * b) /\ Q 1%nat 2%nat = - (l / (b * b)) /\ Q 2%nat 1%nat = - (l / (b * b)) /\
  Q 2%nat 2%nat = l * l / (b * b) - 1 /\ Q 0%nat 1%nat = 0 /\ Q 1%nat 0%nat = 0 /\ Q 0%nat 2%nat = 0 /\ Q 2%nat 0%nat = 0.
Proof.
  unfold Q, offset_ellipse, translate, transform, solve_mat, mulm, trn, from_axes, pt2, idn. rewrite !sumn3'. cbn.
  repeat split; field; lra.
Qed.
Lemma ell_value : forall p, value 2 Q p = p 0%nat * p 0%nat / (a * a) + (p 1%nat - l) * (p 1%nat - l) / (b * b) - 1.
Proof.
  intros p. destruct ell_entries as (E1 & E2 & E3 & E4 & E5 & E6 & E7 & E8 & E9). unfold value. rewrite !sumn2', E1, E2, E3, E4, E5, E6, E7, E8, E9. field. lra.
Qed.
Let w := sqrt (l * l - b * b).
Lemma w_pos : 0 < w /\ w * w = l * l - b * b.
Proof. split; [apply sqrt_lt_R0; nra|apply sqrt_sqrt; nra]. Qed.
Lemma ell_shadow : half_shadow Q (a / w).
Proof.
  destruct w_pos as [W0 WW].
  assert (P : forall x, x * x = 1 -> exists p, value 2 Q p = 0 /\ 0 < p 1%nat /\ p 0%nat = x * (a / w * p 1%nat)).
  { intros x X. exists (pt2 (x * (a / w * (w * w / l))) (w * w / l)). cbn [pt2]. split; [|split; [apply Rdiv_lt_0_compat; nra|reflexivity]].
    rewrite ell_value. cbn [pt2]. replace (x * (a / w * (w * w / l)) * (x * (a / w * (w * w / l))) / (a * a)) with (x * x * (w * w) / (l * l)) by (field; lra).
    rewrite X, WW. field. lra. }
  split; [|split].
  - intros p E. rewrite ell_value in E. set (x := p 0%nat) in *. set (y := p 1%nat) in *.
    assert (E' : x * x * (b * b) = a * a * (b * b - (y - l) * (y - l))).
    { apply (f_equal (fun t => t * (a * a) * (b * b))) in E.
      replace ((x * x / (a * a) + (y - l) * (y - l) / (b * b) - 1) * (a * a) * (b * b)) with (x * x * (b * b) + (y - l) * (y - l) * (a * a) - a * a * (b * b)) in E by (field; lra). lra. }
    assert (Y0 : 0 < y).
    { assert ((y - l) * (y - l) <= b * b).
      { apply Rmult_le_reg_l with (a * a); [nra|]. pose proof (Rle_0_sqr x). unfold Rsqr in *. pose proof (Rmult_le_pos (x * x) (b * b) ltac:(lra) ltac:(nra)). lra. }
      apply Rnot_le_lt. intros Y. pose proof (Rmult_lt_0_compat (l - y - b) (l - y + b) ltac:(lra) ltac:(lra)). lra. }
    assert (T0 : 0 <= a / w * y) by (apply Rmult_le_pos; [left; now apply Rdiv_lt_0_compat|lra]).
    apply Rsqr_incr_0_var; auto. rewrite <- Rsqr_abs. unfold Rsqr.
    replace (a / w * y * (a / w * y)) with (a * a * (y * y) / (w * w)) by (field; lra).
    apply Rmult_le_reg_r with (w * w * (b * b)); [apply Rmult_lt_0_compat; now apply Rmult_lt_0_compat|].
    replace (a * a * (y * y) / (w * w) * (w * w * (b * b))) with (a * a * (b * b * (y * y))) by (field; lra).
    replace (x * x * (w * w * (b * b))) with (w * w * (x * x * (b * b))) by ring. rewrite E'.
    replace (w * w * (a * a * (b * b - (y - l) * (y - l)))) with (a * a * (w * w * (b * b - (y - l) * (y - l)))) by ring.
    apply Rmult_le_compat_l; [nra|].
    pose proof (Rle_0_sqr (l * y - w * w)) as S. unfold Rsqr in S. rewrite WW in *. nra.
  - destruct (P 1 ltac:(ring)) as (p & E & Y & X). exists p. split; [exact E|]. split; [exact Y|]. lra.
  - destruct (P (-1) ltac:(ring)) as (p & E & Y & X). exists p. split; [exact E|]. split; [exact Y|]. lra.
Qed.
Lemma shadow_unique : forall t u, half_shadow Q t -> half_shadow Q u -> t = u.
Proof.
  intros t u (T1 & (p & P1 & P2 & P3) & _) (U1 & (q & Q1 & Q2 & Q3) & _).
  pose proof (T1 q Q1) as X. rewrite Q3 in X. pose proof (U1 p P1) as Y. rewrite P3 in Y.
  pose proof (Rle_abs (u * q 1%nat)). pose proof (Rle_abs (t * p 1%nat)).
  assert (u <= t) by (apply Rmult_le_reg_r with (q 1%nat); lra). assert (t <= u) by (apply Rmult_le_reg_r with (p 1%nat); lra). lra.
Qed.

(** the polar of the origin *)
Let o := l - b * b / l.
Lemma o_pos : 0 < o /\ o = w * w / l /\ l - b < o < l.
Proof.
  destruct w_pos as [W0 WW]. unfold o. split; [|split; [rewrite WW; field; lra|]].
  - replace (l - b * b / l) with (w * w / l) by (rewrite WW; field; lra). apply Rdiv_lt_0_compat; nra.
  - assert (0 < b * b / l < b); [|lra]. split; [apply Rdiv_lt_0_compat; nra|]. apply Rmult_lt_reg_r with l; [lra|]. replace (b * b / l * l) with (b * b) by (field; lra). nra.
Qed.
Lemma polar_entries : let P := polar_plane 2 Q (pt2 0 0) in P 0%nat = 0 /\ P 1%nat = - (l / (b * b)) /\ P 2%nat = l * l / (b * b) - 1.
Proof.
  destruct ell_entries as (E1 & E2 & E3 & E4 & E5 & E6 & E7 & E8 & E9). unfold polar_plane, mulv, augment, pt2. rewrite !sumn3'. cbn.
  repeat split; field; lra.
Qed.
Lemma polar_norm : normn 2 (polar_plane 2 Q (pt2 0 0)) = l / (b * b).
Proof.
  destruct polar_entries as (P0 & P1 & _). unfold normn. rewrite sumn2', P0, P1.
  replace (0 * 0 + - (l / (b * b)) * - (l / (b * b))) with (Rsqr (l / (b * b))) by (unfold Rsqr; ring). apply sqrt_Rsqr. apply Rlt_le, Rdiv_lt_0_compat; nra.
Qed.
Lemma polar_hessian : exists h, hessian_normal 2 (polar_plane 2 Q (pt2 0 0)) = Some h /\ h 0%nat = 0 /\ h 1%nat = -1 /\ h 2%nat = o.
Proof.
  destruct polar_entries as (P0 & P1 & P2). unfold hessian_normal. assert (LB : 0 < l / (b * b)) by (apply Rdiv_lt_0_compat; nra).
  destruct (Req_EM_T _ 0) as [Z|_]; [rewrite polar_norm in Z; lra|]. eexists. split; [reflexivity|]. cbn beta.
  rewrite polar_norm, P0, P1, P2. unfold o. repeat split; field; lra.
Qed.
Lemma cut : exists con tr pt, slice 2 Q (polar_plane 2 Q (pt2 0 0)) None = Ok (con, tr, pt) /\
  pt 0%nat = 0 /\ pt 1%nat = o /\ con 0%nat 0%nat = 1 / (a * a) /\ con 0%nat 1%nat + con 1%nat 0%nat + con 1%nat 1%nat = - (w * w / (l * l)).
Proof.
  destruct polar_hessian as (h & EH & H0 & H1 & H2). unfold slice, plane_normal_of, plane_offset. rewrite EH. cbn [option_map].
  unfold default_axes, perpendicular_vector. cbn [rbind]. cbn [Nat.eqb]. cbn [length Nat.eqb Nat.sub]. do 3 eexists. split; [reflexivity|].
  destruct ell_entries as (E1 & E2 & E3 & E4 & E5 & E6 & E7 & E8 & E9).
  destruct w_pos as [W0 WW]. cbn beta. rewrite H0, H1, H2. split; [ring|]. split; [ring|].
  unfold transform, solve_mat, mulm, trn, slice_matrix. rewrite !sumn3'. cbn [Nat.eqb Nat.sub nth app].
  rewrite H0, H1, E1, E2, E3, E4, E5, E6, E7, E8, E9. split; [field; lra|]. rewrite WW. unfold o. field. lra.
Qed.
Lemma svd1 : forall A U s V, is_svdn 1 A U s V -> 0 <= A 0%nat 0%nat -> s 0%nat = A 0%nat 0%nat /\ V 0%nat 0%nat * V 0%nat 0%nat = 1.
Proof.
  intros A U s V ((U1 & _) & (V1 & _) & S0 & _ & E) P. specialize (U1 0%nat 0%nat ltac:(lia) ltac:(lia)). specialize (V1 0%nat 0%nat ltac:(lia) ltac:(lia)).
  specialize (S0 0%nat ltac:(lia)). specialize (E 0%nat 0%nat ltac:(lia) ltac:(lia)). unfold mulm, trn, idn in U1, V1. cbn beta in E. rewrite sumn1' in *. cbn in U1, V1. split; auto.
  set (u := U 0%nat 0%nat) in *. set (v := V 0%nat 0%nat) in *. set (x := s 0%nat) in *. set (y := A 0%nat 0%nat) in *. clearbody u v x y.
  assert (y * y = x * x). { rewrite E. replace (u * x * v * (u * x * v)) with (x * x * (u * u) * (v * v)) by ring. rewrite U1, V1. ring. }
  assert (K : (y - x) * (y + x) = 0) by lra. apply Rmult_integral in K. destruct K; lra.
Qed.
Lemma cut_axis : forall svd, (forall A, let '(U, s, V) := svd 1%nat A in is_svdn 1 A U s V) ->
  exists v con tr pt ax, v * v = 1 /\ slice 2 Q (polar_plane 2 Q (pt2 0 0)) None = Ok (con, tr, pt) /\ normn 2 pt = o /\
    major_axes svd 1 con = Ok ax /\ ax 0%nat 0%nat = w / (a * l) * v.
Proof.
  intros svd SV. destruct cut as (con & tr & pt & E & P0 & P1 & C0 & C1). specialize (SV con). destruct w_pos as [W0 WW], o_pos as [O0 _].
  unfold major_axes. destruct (svd 1%nat con) as [[U s] V] eqn:ES.
  assert (AP : 0 < 1 / (a * a)) by (apply Rdiv_lt_0_compat; nra).
  destruct (svd1 con U s V SV) as [S0 V0]; [rewrite C0; lra|].
  exists (V 0%nat 0%nat), con, tr, pt. 
  assert (T : - (total 2 con - total 1 con) = w * w / (l * l)).
  { unfold total. rewrite sumn2', !sumn1', !sumn2'. lra. }
  assert (Z : s 0%nat * (w * w / (l * l)) = Rsqr (w / (a * l))) by (rewrite S0, C0; unfold Rsqr; field; lra).
  rewrite ES. cbv zeta. cbn [seq existsb]. cbn beta. rewrite T, Z. destruct (Rlt_dec _ 0) as [N|_]; [pose proof (Rle_0_sqr (w / (a * l))); lra|]. cbn [orb].
  eexists. split; [exact V0|]. split; [exact E|]. split; [|split; [reflexivity|]].
  - unfold normn. rewrite sumn2', P0, P1. replace (0 * 0 + o * o) with (Rsqr o) by (unfold Rsqr; ring). apply sqrt_Rsqr. lra.
  - cbn beta. rewrite ?T, Z, sqrt_Rsqr; [reflexivity|]. apply Rlt_le, Rdiv_lt_0_compat; nra.
Qed.
Lemma atan2_ratio : forall x y, 0 < y -> atan2 x y = atan (x / y). Proof. intros. now apply atan2_pos. Qed.
Lemma seen : forall svd, (forall A, let '(U, s, V) := svd 1%nat A in is_svdn 1 A U s V) ->
  angle_subtended2 svd Q = Ok (atan (1 / (a * w))) /\
  (shadow_by_hand svd Q = Ok (atan (1 / (a * w))) \/ shadow_by_hand svd Q = Ok (- atan (1 / (a * w)))).
Proof.
  intros svd SV. destruct (cut_axis svd SV) as (v & con & tr & pt & ax & V & E & N & M & A). destruct w_pos as [W0 WW], o_pos as (O0 & OE & _).
  assert (F : w / (a * l) / o = 1 / (a * w)) by (rewrite OE; field; lra).
  split.
  - unfold angle_subtended2, projection. change (fun _ : nat => 0) with zero.
    assert (PE : polar_plane 2 Q zero = polar_plane 2 Q (pt2 0 0)).
    { unfold polar_plane. f_equal. unfold augment. apply Coq.Logic.FunctionalExtensionality.functional_extensionality. intros [|[|i]]; reflexivity. }
    rewrite PE, E. cbn [rbind]. rewrite M. cbn [rbind]. f_equal. rewrite N, atan2_ratio by auto. f_equal. rewrite <- F. f_equal.
    unfold normn. rewrite sumn1', A. replace (w / (a * l) * v * (w / (a * l) * v)) with (Rsqr (w / (a * l)) * (v * v)) by (unfold Rsqr; ring).
    rewrite V, Rmult_1_r. apply sqrt_Rsqr. apply Rlt_le, Rdiv_lt_0_compat; nra.
  - unfold shadow_by_hand. rewrite E. cbn [rbind]. rewrite M. cbn [rbind]. rewrite N, A, atan2_ratio by auto.
    assert (K : (v - 1) * (v + 1) = 0) by lra. apply Rmult_integral in K. destruct K as [K|K].
    + left. do 2 f_equal. rewrite <- F. replace v with 1 by lra. field. lra.
    + right. rewrite <- atan_opp. do 2 f_equal. rewrite <- F. replace v with (-1) by lra. field. lra.
Qed.
End ellipse.
Unset Default Proof Using.

(** What test_ellipse_offset checks on the way is true of every ellipse and shift: *)
Theorem C209_shadow : forall inv a b l, numpy_inv inv -> 0 < a -> 0 < b -> b < l ->
  let C := offset_ellipse a b l in
  (exists c, center inv 2 C = Ok c /\ c 0%nat = 0 /\ c 1%nat = l) /\
  polar_offset C = Some (l - b * b / l) /\ l - b < l - b * b / l < l /\
  half_shadow C (a / sqrt (l * l - b * b)) /\ (forall t, half_shadow C t -> t = a / sqrt (l * l - b * b)) /\
  angular_shadow a b l = Some (atan (a / sqrt (l * l - b * b))).
Proof.
  intros inv a b l HI A0 B0 L0 C. destruct (polar_hessian a b l A0 B0 L0) as (h & EH & _ & _ & H2). destruct (o_pos a b l A0 B0 L0) as (O0 & OE & O1).
  destruct (w_pos a b l A0 B0 L0) as [W0 WW].
  assert (PO : polar_offset C = Some (l - b * b / l)) by (unfold polar_offset, C; rewrite EH; cbn [option_map]; now rewrite H2).
  split; [|split; [exact PO|split; [exact O1|split; [now apply ell_shadow|split]]]].
  - assert (IV : is_inverse 2 C (fun i j => if (i =? j)%nat then pt2 (a * a) (b * b) i else 0)).
    { destruct (ell_entries a b l A0 B0 L0) as (E1 & E2 & _ & _ & _ & E6 & E7 & _). unfold is_inverse, meq, mulm, idn, C.
      split; intros i j I J; destruct i as [|[|i]], j as [|[|j]]; try lia; rewrite sumn2'; cbn; rewrite ?E1, ?E2, ?E6, ?E7; field; lra. }
    unfold center. pose proof (HI 2%nat C) as HC. destruct (inv 2%nat C) as [B|]; [|exfalso; apply HC; eexists; exact IV].
    eexists. split; [reflexivity|]. pose proof (inverse_unique 2 C C _ _ (fun i j _ _ => eq_refl) HC IV) as U.
    destruct (ell_entries a b l A0 B0 L0) as (_ & _ & E3 & _ & _ & _ & _ & E8 & _). unfold mulv. rewrite !sumn2'.
    rewrite (U 0%nat 0%nat), (U 0%nat 1%nat), (U 1%nat 0%nat), (U 1%nat 1%nat) by lia. unfold C. rewrite E3, E8. cbn. split; [ring|field; lra].
  - intros t T. apply (shadow_unique a b l A0 B0 L0); [exact T|now apply ell_shadow].
  - unfold angular_shadow. fold C. rewrite PO. cbn [option_map]. f_equal. rewrite atan2_pos by (rewrite <- ?OE; exact O0). f_equal.
    set (w := sqrt (l * l - b * b)) in *. assert (SQ : sqrt (1 - b ^ 2 / l ^ 2) = w / l).
    { replace (1 - b ^ 2 / l ^ 2) with (Rsqr (w / l)); [apply sqrt_Rsqr; apply Rlt_le, Rdiv_lt_0_compat; lra|].
      unfold Rsqr. replace (w / l * (w / l)) with (w * w / (l * l)) by (field; lra). rewrite WW. field. lra. }
    rewrite SQ, OE. field. lra.
Qed.
(** it is the shift that is wrong: the shadow is the hyperbola's angle for the root of
    the test's sum only *)
Theorem C209_shift : forall a b l, 0 < a -> 0 < b -> b < l ->
  (angular_shadow a b l = Some (hyperbola_angle a b) <-> l = sqrt (a ^ 4 + b ^ 4) / b) /\
  (tested_shift a b = sqrt (a ^ 4 + b ^ 4) / b <-> a ^ 4 + b ^ 4 = 1).
Proof.
  intros a b l A0 B0 L0. destruct (C209_shadow any_inv a b l any_inv_ok A0 B0 L0) as (_ & _ & _ & _ & _ & E).
  destruct (w_pos a b l A0 B0 L0) as [W0 WW]. set (w := sqrt (l * l - b * b)) in *.
  assert (S0 : 0 < a ^ 4 + b ^ 4) by (pose proof (pow_lt a 4 A0); pose proof (pow_lt b 4 B0); lra).
  pose proof (sqrt_lt_R0 _ S0) as R0. pose proof (sqrt_sqrt (a ^ 4 + b ^ 4) ltac:(lra)) as RR. set (r := sqrt (a ^ 4 + b ^ 4)) in *.
  split.
  - rewrite E. unfold hyperbola_angle. rewrite atan2_pos by auto. split; intros H.
    + injection H as H. assert (H' : a / w = b / a) by (rewrite <- (tan_atan (a / w)), H; apply tan_atan).
      apply (f_equal (fun x => x * w * a)) in H'. replace (a / w * w * a) with (a * a) in H' by (field; lra). replace (b / a * w * a) with (b * w) in H' by (field; lra).
      assert (LL : (l * b) * (l * b) = r * r).
      { rewrite RR. replace (a ^ 4) with (a * a * (a * a)) by ring. rewrite H'. replace (b * w * (b * w)) with (b * b * (w * w)) by ring. rewrite WW. ring. }
      assert (l * b = r). { assert (K : (l * b - r) * (l * b + r) = 0) by lra. apply Rmult_integral in K. destruct K; [lra|]. pose proof (Rmult_lt_0_compat l b ltac:(lra) B0). lra. }
      rewrite <- H0. field. lra.
    + f_equal. f_equal. assert (w = a * a / b).
      { assert (Y : w * w = a * a / b * (a * a / b)).
        { rewrite WW, H. replace (r / b * (r / b)) with (r * r / (b * b)) by (field; lra). rewrite RR. field. lra. }
        assert (P : 0 < a * a / b) by (apply Rdiv_lt_0_compat; nra).
        assert (K : (w - a * a / b) * (w + a * a / b) = 0) by lra. apply Rmult_integral in K. destruct K; lra. }
      rewrite H0. field. lra.
  - unfold tested_shift. fold r. rewrite <- RR. split; intros H.
    + apply (f_equal (fun x => x * b)) in H. replace (1 / b * (r * r) * b) with (r * r) in H by (field; lra). replace (r / b * b) with r in H by (field; lra).
      assert (K : r * (r - 1) = 0) by lra. apply Rmult_integral in K. destruct K as [K|K]; [lra|]. replace r with 1 by lra. ring.
    + assert (r = 1). { assert (K : (r - 1) * (r + 1) = 0) by lra. apply Rmult_integral in K. destruct K; lra. } rewrite H0. field. lra.
Qed.
(** so the assertion marked as failing is false for the numbers of the test, *)
Theorem C209_test_refuted : exists a b, a = 10 /\ b = 5 /\ b < tested_shift a b /\
  angular_shadow a b (tested_shift a b) <> Some (hyperbola_angle a b) /\
  angular_shadow a b (sqrt (a ^ 4 + b ^ 4) / b) = Some (hyperbola_angle a b).
Proof.
  exists 10, 5. assert (T : tested_shift 10 5 = 2125) by (unfold tested_shift; field).
  split; [reflexivity|]. split; [reflexivity|]. split; [rewrite T; lra|].
  assert (L : 5 < sqrt (10 ^ 4 + 5 ^ 4) / 5).
  { apply Rmult_lt_reg_r with 5; [lra|]. replace (sqrt (10 ^ 4 + 5 ^ 4) / 5 * 5) with (sqrt (10 ^ 4 + 5 ^ 4)) by field.
    replace (5 * 5) with (sqrt (25 * 25)) by (rewrite sqrt_square; lra). apply sqrt_lt_1; lra. }
  split.
  - intros H. destruct (C209_shift 10 5 (tested_shift 10 5) ltac:(lra) ltac:(lra) ltac:(rewrite T; lra)) as [S1 S2].
    apply S1 in H. apply S2 in H. lra.
  - apply C209_shift; try lra.
Qed.
(** and angle_subtended, in the plane, is right exactly for half axes across of length
    one; taking the length without its sign is needed *)
Theorem C209_subtended : forall svd a b l, (forall A, let '(U, s, V) := svd 1%nat A in is_svdn 1 A U s V) -> 0 < a -> 0 < b -> b < l ->
  let w := sqrt (l * l - b * b) in
  angle_subtended2 svd (offset_ellipse a b l) = Ok (atan (1 / (a * w))) /\
  (angle_subtended2 svd (offset_ellipse a b l) = Ok (atan (a / w)) <-> a = 1) /\
  (shadow_by_hand svd (offset_ellipse a b l) = Ok (atan (1 / (a * w))) \/ shadow_by_hand svd (offset_ellipse a b l) = Ok (- atan (1 / (a * w)))).
Proof.
  intros svd a b l SV A0 B0 L0 w. destruct (seen a b l A0 B0 L0 svd SV) as [E1 E2]. destruct (w_pos a b l A0 B0 L0) as [W0 _]. fold w in E1, E2, W0.
  split; [exact E1|]. split; [|exact E2]. rewrite E1. split; intros H.
  - injection H as H. assert (H' : 1 / (a * w) = a / w) by (rewrite <- (tan_atan (1 / (a * w))), H; apply tan_atan).
    apply (f_equal (fun x => x * (a * w))) in H'. replace (1 / (a * w) * (a * w)) with 1 in H' by (field; lra). replace (a / w * (a * w)) with (a * a) in H' by (field; lra).
    assert (K : (a - 1) * (a + 1) = 0) by lra. apply Rmult_integral in K. destruct K; lra.
  - rewrite H. do 2 f_equal. field. lra.
Qed.
(** test_angular_shadow: a unit circle two away is seen under 30 degrees to each side *)
Example C209_ex : exists svd : svdn_fn, (forall A, let '(U, s, V) := svd 1%nat A in is_svdn 1 A U s V) /\
  angle_subtended2 svd (offset_ellipse 1 1 2) = Ok (PI / 6).
Proof.
  exists (fun _ A => (fun _ _ => if Rle_dec 0 (A 0%nat 0%nat) then 1 else -1, fun _ => Rabs (A 0%nat 0%nat), fun _ _ => 1)).
  assert (SV : forall A : matn, is_svdn 1 A (fun _ _ => if Rle_dec 0 (A 0%nat 0%nat) then 1 else -1) (fun _ => Rabs (A 0%nat 0%nat)) (fun _ _ => 1)).
  { intros A. unfold is_svdn, orthogonal, is_inverse, meq, mulm, trn, idn. 
    split; [split; intros [|i] [|j] I J; try lia; rewrite sumn1'; cbn; destruct (Rle_dec 0 _); ring|].
    split; [split; intros [|i] [|j] I J; try lia; rewrite sumn1'; cbn; ring|]. split; [intros; apply Rabs_pos|]. split; [intros; lra|].
    intros [|i] [|j] I J; try lia. rewrite sumn1'. destruct (Rle_dec 0 _); [rewrite Rabs_pos_eq by auto|rewrite Rabs_left by lra]; ring. }
  split; [exact SV|]. match goal with |- angle_subtended2 ?f _ = _ => rewrite (proj1 (C209_subtended f 1 1 2 SV ltac:(lra) ltac:(lra) ltac:(lra))) end. f_equal.
  replace (2 * 2 - 1 * 1) with 3 by ring. rewrite Rmult_1_l. rewrite <- tan_PI6. apply atan_tan. pose proof PI_RGT_0. lra.
Qed.

Print Assumptions C209_shadow.
Print Assumptions C209_shift.
Print Assumptions C209_test_refuted.
Print Assumptions C209_subtended.
