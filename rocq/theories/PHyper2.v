(** Property C106: the band sampled by angle (hyperbolic_errors_parametric). *)
From Coq Require Import Reals Lra Lia List Arith Bool Psatz.
From Verif Require Import RVec Trig LNum SpecConics MConics LConics LSlice MHyper PHyper.
Import ListNotations.
Notation length := List.length.
Open Scope R_scope.

Lemma horizontal_identity : forall x y rest, x * x + y * y <> 0 ->
  apparent_dip_correction (Some ([x; y; 0] :: rest)) = Ok ((1, 0), (0, 1)).
Proof.
  intros x y rest NZ. destruct (C76_angle x y 0 rest NZ) as (c & s & E & H). rewrite E.
  assert (c = 1 /\ s = 0) as [-> ->]; [|do 2 f_equal; f_equal; ring].
  destruct H as [[-> ->]|(-> & -> & _)]; auto. split.
  - replace ((x * x + y * y) / (x * x + y * y + 0 * 0)) with 1 by (field; lra). apply sqrt_1.
  - replace (0 * 0 / (x * x + y * y + 0 * 0)) with 0 by (field; lra). apply sqrt_0.
Qed.

(** the points written out for a flat section with semi-axes A0, A1 and no mean *)
Definition flat_top (A0 A1 : R) : list (R * R) :=
  let cut := atan (A1 / A0) in
  parametric_branch (A0, A1) A0 (0, 0) (map (fun t => t - PI / 2) (linspace cut (PI - cut) 500)).
Definition flat_bottom (A0 A1 : R) : list (R * R) :=
  let cut := atan (A1 / A0) in
  parametric_branch (A0, A1) A0 (0, 0) (rev (map (fun t => t + PI / 2) (linspace cut (PI - cut) 500))).

Lemma parametric_flat : forall inv h0 h1 T x y rest, numpy_inv inv -> 0 < h0 -> 0 < h1 -> / 100000 <= sqrt h0 ->
  x * x + y * y <> 0 ->
  hyperbolic_errors_parametric inv [h0; h1] T (Some ([x; y; 0] :: rest)) None =
  Ok ([(-10000, 0); (10000, 0)], negate_last (flat_bottom (sqrt h0) (sqrt h1)), rev (flat_top (sqrt h0) (sqrt h1))).
Proof.
  intros inv h0 h1 T x y rest HI H0 H1 L NZ. unfold hyperbolic_errors_parametric, view_conic.
  destruct (dual_diag inv 2 [h0; h1] HI eq_refl) as [A _]. destruct A as (D & ED & MD); [repeat constructor; lra|].
  change (length [h0; h1]) with 2%nat. rewrite ED. cbn [Nat.eqb rbind]. unfold semiaxes. cbn [seq existsb].
  assert (I0 := Rinv_0_lt_compat _ H0). assert (I1 := Rinv_0_lt_compat _ H1).
  assert (D0 : D 0%nat 0%nat = / h0) by (rewrite MD by lia; reflexivity).
  assert (D1 : D 1%nat 1%nat = / h1) by (rewrite MD by lia; reflexivity).
  rewrite D0, D1. destruct (Req_EM_T (/ h0) 0); [lra|]. destruct (Req_EM_T (/ h1) 0); [lra|]. cbn [orb rbind negb Nat.eqb].
  rewrite D0, D1, !Rabs_pos_eq, !Rinv_inv by lra. rewrite horizontal_identity by auto. cbn [rbind fst snd].
  destruct (Rlt_dec (sqrt h0) (/ 100000)); [lra|]. rewrite atan2_pos by now apply sqrt_lt_R0.
  assert (ID : forall l : list (R * R), map (fun p => (fst (vmul2 p (1, 0, (0, 1))) + 0, snd (vmul2 p (1, 0, (0, 1))) + 0)) l = l).
  { intros l. rewrite <- (map_id l) at 2. apply map_ext. intros [u v]. unfold vmul2. cbn [fst snd]. f_equal; ring. }
  rewrite !ID. reflexivity.
Qed.

Lemma linspace_nth : forall lo hi m k d, (k < m)%nat -> nth k (linspace lo hi m) d = lo + INR k * ((hi - lo) / INR (m - 1)).
Proof.
  intros lo hi m k d K. unfold linspace. set (f := fun k => lo + INR k * ((hi - lo) / INR (m - 1))).
  rewrite (nth_indep _ d (f 0%nat)) by (rewrite map_length, seq_length; auto).
  rewrite (map_nth f), seq_nth by auto. reflexivity.
Qed.
Lemma linspace_In : forall lo hi m t, lo <= hi -> (1 < m)%nat -> In t (linspace lo hi m) -> lo <= t <= hi.
Proof.
  intros lo hi m t L M H. apply in_map_iff in H. destruct H as (k & <- & K). apply in_seq in K.
  assert (P : 0 < INR (m - 1)) by (apply lt_0_INR; lia). assert (Q : INR k <= INR (m - 1)) by (apply le_INR; lia).
  pose proof (pos_INR k). assert (G : 0 <= INR k / INR (m - 1) <= 1).
  { split; [apply Rmult_le_pos; [auto|left; now apply Rinv_0_lt_compat]|]. apply Rmult_le_reg_r with (INR (m - 1)); auto.
    unfold Rdiv. rewrite Rmult_assoc, Rinv_l by lra. lra. }
  replace (INR k * ((hi - lo) / INR (m - 1))) with (INR k / INR (m - 1) * (hi - lo)) by (field; lra). nra.
Qed.
(** the angles of both edges *)
Lemma cut_bounds : forall A0 A1, 0 < A0 -> 0 < A1 -> 0 < atan (A1 / A0) < PI / 2.
Proof.
  intros A0 A1 H0 H1. split; [|apply atan_bound]. rewrite <- atan_0. apply atan_increasing. now apply Rdiv_lt_0_compat.
Qed.

Definition on_hyperbola (h0 h1 : R) (p : R * R) : Prop := snd p * snd p / h1 - fst p * fst p / h0 = 1.

Lemma branch_In : forall H a means angles t, In t angles ->
  In (fst H * tan t * cos a + fst means, snd H * (1 / cos t) * sin a + snd means) (parametric_branch H a means angles).
Proof.
  intros H a means angles t I. unfold parametric_branch.
  apply (in_map (fun p => (fst p * cos a + fst means, snd p * sin a + snd means)) _ (fst H * tan t, snd H * (1 / cos t))).
  right. apply in_or_app. left. exact (in_map (fun t => (fst H * tan t, snd H * (1 / cos t))) _ t I).
Qed.

(** whatever the semi-axes, the sampled edge is not (all) on the error hyperbola *)
Theorem C106_off_hyperbola : forall inv h0 h1 T x y rest, numpy_inv inv -> 0 < h0 -> 0 < h1 -> / 100000 <= sqrt h0 ->
  x * x + y * y <> 0 ->
  exists nom bottom top, hyperbolic_errors_parametric inv [h0; h1] T (Some ([x; y; 0] :: rest)) None = Ok (nom, bottom, top) /\
  exists p, In p top /\ ~ on_hyperbola h0 h1 p.
Proof.
  intros inv h0 h1 T x y rest HI H0 H1 L NZ. do 3 eexists. split; [now apply parametric_flat|].
  set (A0 := sqrt h0). set (A1 := sqrt h1). assert (P0 : 0 < A0) by now apply sqrt_lt_R0. assert (P1 : 0 < A1) by now apply sqrt_lt_R0.
  assert (S0 : A0 * A0 = h0) by (apply sqrt_sqrt; lra). assert (S1 : A1 * A1 = h1) by (apply sqrt_sqrt; lra).
  pose proof (cut_bounds A0 A1 P0 P1) as CB. unfold flat_top. set (cut := atan (A1 / A0)) in *.
  set (angles := linspace cut (PI - cut) 500).
  set (th := fun k => nth k angles 0 - PI / 2).
  assert (TH : forall k, (k < 500)%nat -> In (th k) (map (fun t => t - PI / 2) angles)).
  { intros k K. unfold th. apply (in_map (fun t => t - PI / 2)). apply nth_In. unfold angles, linspace. rewrite map_length, seq_length. auto. }
  set (pt := fun k => (A0 * tan (th k) * cos A0 + 0, A1 * (1 / cos (th k)) * sin A0 + 0)).
  assert (IN : forall k, (k < 500)%nat -> In (pt k) (rev (parametric_branch (A0, A1) A0 (0, 0) (map (fun t => t - PI / 2) angles)))).
  { intros k K. apply -> in_rev. apply (branch_In (A0, A1) A0 (0, 0) _ (th k)). auto. }
  destruct (Req_EM_T (snd (pt 0%nat) * snd (pt 0%nat) / h1 - fst (pt 0%nat) * fst (pt 0%nat) / h0) 1) as [E0|N0].
  2:{ exists (pt 0%nat). split; [apply IN; lia|exact N0]. }
  exists (pt 1%nat). split; [apply IN; lia|]. intros E1. unfold on_hyperbola, pt in E0, E1. cbn [fst snd] in E0, E1.
  assert (T0 : th 0%nat = cut - PI / 2) by (unfold th, angles; rewrite linspace_nth by lia; simpl INR; lra).
  assert (T1 : th 1%nat = cut - PI / 2 + (PI - 2 * cut) / 499).
  { unfold th, angles; rewrite linspace_nth by lia. replace (INR (500 - 1)) with 499 by (rewrite INR_IZR_INZ; reflexivity). simpl INR. lra. }
  assert (ORD : - PI / 2 < th 0%nat < th 1%nat /\ th 1%nat < 0) by (rewrite T0, T1; lra).
  assert (TT : tan (th 0%nat) < tan (th 1%nat)) by (apply tan_increasing; lra).
  assert (TN : tan (th 1%nat) < 0) by (apply tan_lt_0; lra).
  assert (G : forall t, - PI / 2 < t < 0 ->
    (A1 * (1 / cos t) * sin A0 + 0) * (A1 * (1 / cos t) * sin A0 + 0) / h1 - (A0 * tan t * cos A0 + 0) * (A0 * tan t * cos A0 + 0) / h0 = 1 ->
    (1 + tan t * tan t) * (sin A0 * sin A0) - tan t * tan t * (cos A0 * cos A0) = 1).
  { intros t B E. assert (C : 0 < cos t) by (apply cos_gt_0; lra). rewrite <- S0, <- S1 in E. etransitivity; [|exact E].
    pose proof (sin2_cos2 t) as SC. unfold Rsqr in SC.
    assert (Q : 1 + tan t * tan t = 1 / cos t * (1 / cos t)).
    { replace (1 / cos t * (1 / cos t)) with ((sin t * sin t + cos t * cos t) / (cos t * cos t)) by (rewrite SC; field; lra).
      unfold tan. field. lra. }
    rewrite Q. set (tt := tan t). field. lra. }
  apply G in E0; [|lra]. apply G in E1; [|lra].
  pose proof (sin2_cos2 A0) as SA. unfold Rsqr in SA. nra.
Qed.
Example C106_ex : / 100000 <= sqrt 9 /\ 1 * 1 + 0 * 0 <> 0.
Proof. split; [|lra]. replace 9 with (3 * 3) by lra. rewrite sqrt_square; lra. Qed.

(** the mean moves the nominal line once and the edge twice *)
Lemma parametric_branch_mean : forall H a m angles,
  parametric_branch H a m angles = map (plus2 m) (parametric_branch H a (0, 0) angles).
Proof.
  intros H a m angles. unfold parametric_branch. rewrite map_map. apply map_ext. intros p. unfold plus2. cbn [fst snd]. f_equal; ring.
Qed.
Lemma Ok_inj : forall A (x y : A), Ok x = Ok y -> x = y.
Proof. congruence. Qed.
Theorem C106_mean_twice : forall inv hyp T axes mx my nom bottom top,
  hyperbolic_errors_parametric inv hyp T axes None = Ok (nom, bottom, top) ->
  exists bottom' rx ry, rx * rx + ry * ry = mx * mx + my * my /\
  hyperbolic_errors_parametric inv hyp T axes (Some (mx, my)) =
    Ok (map (plus2 (mx, my)) nom, bottom', map (plus2 (mx + rx, my + ry)) top) /\
  forall x y rest, axes = Some ([x; y; 0] :: rest) -> x * x + y * y <> 0 -> rx = mx /\ ry = my.
Proof.
  intros inv hyp T axes mx my nom bottom top. unfold hyperbolic_errors_parametric.
  destruct (view_conic inv hyp T axes) as [[n C]| |]; try discriminate. cbn [rbind].
  destruct (semiaxes n C) as [s| |]; try discriminate. cbn [rbind].
  destruct (negb (n =? 2)%nat); try discriminate. cbn [fst snd].
  generalize (linspace (atan2 (sqrt (s 1%nat)) (sqrt (s 0%nat))) (PI - atan2 (sqrt (s 1%nat)) (sqrt (s 0%nat))) 500). intros lin.
  set (axes' := match axes with Some a => Some a | None => _ end).
  destruct (apparent_dip_correction axes') as [ax1| |] eqn:E; try discriminate. cbn [rbind fst snd].
  destruct (Rlt_dec (sqrt (s 0%nat)) (/ 100000)); try discriminate.
  intros X. apply Ok_inj in X. apply pair_equal_spec in X. destruct X as [X <-]. apply pair_equal_spec in X. destruct X as [<- <-].
  assert (R : exists c sn, ax1 = ((c, sn), (- sn, c)) /\ c * c + sn * sn = 1 /\
    forall x y rest, axes = Some ([x; y; 0] :: rest) -> x * x + y * y <> 0 -> c = 1 /\ sn = 0).
  { destruct axes' as [[|a0 rest]|] eqn:EA; try discriminate. destruct a0 as [|z0 zs]; [discriminate|].
    destruct (correction_spec (z0 :: zs) rest ltac:(discriminate)) as (c & sn & E' & N & _). rewrite E in E'. injection E' as ->.
    exists c, sn. split; auto. split; auto. intros x y rest' EX NZ. subst axes'. rewrite EX in EA. injection EA as <- <- <-.
    rewrite horizontal_identity in E by auto. injection E as -> -> _ _. auto. }
  destruct R as (c & sn & -> & N & HZ). eexists. exists (mx * c - my * sn), (mx * sn + my * c). split; [nra|]. split.
  - apply f_equal, f_equal2; [apply f_equal2; [|reflexivity]|].
    + unfold vmul2, plus2. cbn [map fst snd]. apply f_equal2; [apply f_equal2; ring|]. apply f_equal2; [apply f_equal2; ring|reflexivity].
    + rewrite <- map_rev, <- map_rev, map_map, parametric_branch_mean, <- map_rev, map_map. apply map_ext.
      intros [u v]. unfold vmul2, plus2. cbn [fst snd]. f_equal; ring.
  - intros x y rest EX NZ. destruct (HZ x y rest EX NZ) as [-> ->]. split; ring.
Qed.
Example C106_mean_ex : forall inv, numpy_inv inv -> exists r, hyperbolic_errors_parametric inv [9; 4] None (Some [[1; 0; 0]]) None = Ok r.
Proof.
  intros inv HI. eexists. apply parametric_flat; auto; try lra; apply C106_ex.
Qed.

(** the last point of the lower edge is on the wrong side *)
Theorem C106_last_point : forall inv h0 h1 T x y rest, numpy_inv inv -> 0 < h0 -> 0 < h1 ->
  / 100000 <= sqrt h0 < PI -> x * x + y * y <> 0 ->
  exists nom edge p top, hyperbolic_errors_parametric inv [h0; h1] T (Some ([x; y; 0] :: rest)) None = Ok (nom, edge ++ [p], top) /\
  length edge = 501%nat /\ Forall (fun q => snd q < 0) edge /\ 0 < snd p /\ Forall (fun q => 0 < snd q) top.
Proof.
  intros inv h0 h1 T x y rest HI H0 H1 [L U] NZ. rewrite parametric_flat by auto.
  set (A0 := sqrt h0) in *. set (A1 := sqrt h1). assert (P0 : 0 < A0) by now apply sqrt_lt_R0. assert (P1 : 0 < A1) by now apply sqrt_lt_R0.
  assert (SP : 0 < sin A0) by now apply sin_gt_0.
  pose proof (cut_bounds A0 A1 P0 P1) as CB. unfold flat_top, flat_bottom. set (cut := atan (A1 / A0)) in *.
  set (angles := linspace cut (PI - cut) 500). pose proof PI_RGT_0 as PP.
  assert (AB : forall t, In t angles -> cut <= t <= PI - cut) by (intros t; apply linspace_In; [lra|lia]).
  assert (AL : length angles = 500%nat) by (unfold angles, linspace; rewrite map_length, seq_length; auto).
  assert (QQ : 0 < A1 / A0) by now apply Rdiv_lt_0_compat.
  set (bt := rev (map (fun t => t + PI / 2) angles)).
  assert (BT : forall t, In t bt -> cos t < 0).
  { intros t I. apply in_rev in I. apply in_map_iff in I. destruct I as (u & <- & I). apply AB in I.
    apply cos_lt_0; lra. }
  set (tp := map (fun t => t - PI / 2) angles).
  assert (TP : forall t, In t tp -> 0 < cos t).
  { intros t I. apply in_map_iff in I. destruct I as (u & <- & I). apply AB in I. apply cos_gt_0; lra. }
  assert (NB : exists t l, bt = t :: l).
  { destruct bt as [|t l] eqn:EB; eauto. apply (f_equal (@length R)) in EB. unfold bt in EB. rewrite rev_length, map_length, AL in EB. discriminate. }
  assert (NT : exists t l, tp = t :: l).
  { destruct tp as [|t l] eqn:EB; eauto. apply (f_equal (@length R)) in EB. unfold tp in EB. rewrite map_length, AL in EB. discriminate. }
  assert (LB : length bt = 500%nat) by (unfold bt; rewrite rev_length, map_length; auto).
  assert (SB : forall t, In t bt -> A1 * (1 / cos t) < 0).
  { intros t I. specialize (BT t I). assert (/ cos t < 0) by (apply Rinv_lt_0_compat, BT). unfold Rdiv. nra. }
  assert (ST : forall t, In t tp -> 0 < A1 * (1 / cos t)).
  { intros t I. specialize (TP t I). assert (0 < / cos t) by now apply Rinv_0_lt_compat. unfold Rdiv. nra. }
  unfold parametric_branch. cbn [fst snd].
  replace (sgn (snd (hd (0, 0) (map (fun t => (A0 * tan t, A1 * (1 / cos t))) bt)))) with (-1).
  2:{ destruct NB as (t & l & EB). rewrite EB. cbn [map hd snd]. specialize (SB t ltac:(rewrite EB; left; auto)).
      unfold sgn. destruct (Rlt_dec 0 (A1 * (1 / cos t))); [lra|]. destruct (Rlt_dec (A1 * (1 / cos t)) 0); lra. }
  replace (sgn (snd (hd (0, 0) (map (fun t => (A0 * tan t, A1 * (1 / cos t))) tp)))) with 1.
  2:{ destruct NT as (t & l & EB). rewrite EB. cbn [map hd snd]. specialize (ST t ltac:(rewrite EB; left; auto)).
      unfold sgn. destruct (Rlt_dec 0 (A1 * (1 / cos t))); lra. }
  set (f := fun p : R * R => (fst p * cos A0 + 0, snd p * sin A0 + 0)).
  set (arrb := map (fun t => (A0 * tan t, A1 * (1 / cos t))) bt). set (arrt := map (fun t => (A0 * tan t, A1 * (1 / cos t))) tp).
  rewrite app_comm_cons, map_app. unfold negate_last at 1. cbn [map].
  eexists. exists (f (- -1 * 1000000, A1 / A0 * 1000000 * -1) :: map f arrb).
  exists (fst (f (-1 * 1000000, A1 / A0 * 1000000 * -1)) * -1, snd (f (-1 * 1000000, A1 / A0 * 1000000 * -1)) * -1). eexists. split.
  - f_equal.
  - split; [|split; [|split]].
    + cbn [length]. unfold arrb. rewrite !map_length, LB. reflexivity.
    + constructor.
      * unfold f. cbn [snd]. nra.
      * apply Forall_forall. intros q Q. apply in_map_iff in Q. destruct Q as (r & <- & Q). unfold f. cbn [snd].
        apply in_map_iff in Q. destruct Q as (t & <- & I). cbn [snd]. specialize (SB t I). nra.
    + unfold f. cbn [snd]. nra.
    + apply Forall_rev. constructor.
      * unfold f. cbn [snd]. nra.
      * rewrite map_app. apply Forall_app. split.
        -- apply Forall_forall. intros q Q. apply in_map_iff in Q. destruct Q as (r & <- & Q). unfold f. cbn [snd].
           apply in_map_iff in Q. destruct Q as (t & <- & I). cbn [snd]. specialize (ST t I). nra.
        -- cbn [map]. constructor; auto. unfold f. cbn [snd]. nra.
Qed.

Print Assumptions C106_off_hyperbola.
Print Assumptions C106_mean_twice.
Print Assumptions C106_last_point.
