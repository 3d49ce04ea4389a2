(** C233: what one more observation does to a regression. *)
From Coq Require Import Reals Lra Lia List Arith Psatz.
From Verif Require Import RVec Trig LNum SpecConics MConics LConics SpecLinear MAxes MLinear LLinear PLinear PLever.
Import ListNotations.
Open Scope R_scope.

(** residual sum of squares of the heights in the first [r] rows *)
Definition rss (r : nat) (A : matn) (m : vecn) : R :=
  sumn r (fun i => (A i 2%nat - fitted r A m i) * (A i 2%nat - fitted r A m i)).

(** [A] has one row more than were fitted first.  The plane moves towards the new height,
    never reaching it; the new residual is smaller than the error of the prediction; and the
    residual sum of squares grows by their product. *)
Theorem C233_added : forall inv r A m, numpy_inv inv -> (0 < r)%nat ->
  rbind (Regression r 3 A) (coefs inv) = Ok m ->
  exists m', rbind (Regression (S r) 3 A) (coefs inv) = Ok m' /\
  let v := A r 2%nat - fitted r A m r in let e := A r 2%nat - fitted (S r) A m' r in
  let D i := fitted (S r) A m' i - fitted r A m i in
  0 <= e * v <= v * v /\ e * e <= e * v /\
  sumn r (fun i => D i * D i) = e * D r /\
  rss (S r) A m' = rss r A m + e * v /\
  (v = 0 -> m' 0%nat = m 0%nat /\ m' 1%nat = m 1%nat /\ forall i, D i = 0) /\
  (v <> 0 -> 0 < e * v < v * v /\ e * e < e * v).
Proof.
  intros inv r A m HI R0 F.
  assert (NC : ~ collinear_xy r A) by (apply (proj2 (C78_defined inv r A HI R0)); eauto).
  assert (NC' : ~ collinear_xy (S r) A).
  { intros (a & b & c & N & H). apply NC. exists a, b, c. split; auto. }
  destruct (proj1 (proj2 (C78_defined inv (S r) A HI ltac:(lia))) NC') as [m' F'].
  exists m'. split; [exact F'|]. intros v e D.
  destruct (fitted_residual inv r A m HI R0 F) as (S0 & X & Y). destruct (fitted_residual inv (S r) A m' HI ltac:(lia) F') as (S' & X' & Y').
  set (u := fun i => A i 2%nat - fitted r A m i) in *. set (u' := fun i => A i 2%nat - fitted (S r) A m' i) in *.
  set (a := m' 0%nat - m 0%nat). set (b := m' 1%nat - m 1%nat).
  set (c := col_mean (S r) A 2 - m' 0%nat * col_mean (S r) A 0 - m' 1%nat * col_mean (S r) A 1
          - (col_mean r A 2 - m 0%nat * col_mean r A 0 - m 1%nat * col_mean r A 1)).
  assert (DD : forall i, D i = c + a * A i 0%nat + b * A i 1%nat) by (intros i; unfold D, fitted, c, a, b; ring).
  assert (UU : forall i, u' i = u i - D i) by (intros i; unfold u', u, D; ring).
  assert (EV : e = v - D r) by (unfold e, v, D; ring).
  change (sumn (S r) u' = 0) in S'. change (sumn r u = 0) in S0.
  change (sumn (S r) (fun i => A i 0%nat * u' i) = 0) in X'. change (sumn (S r) (fun i => A i 1%nat * u' i) = 0) in Y'.
  change (sumn r (fun i => A i 0%nat * u i) = 0) in X. change (sumn r (fun i => A i 1%nat * u i) = 0) in Y.
  assert (O : sumn r (fun i => D i * u i) = 0).
  { rewrite (sumn_ext r _ (fun i => c * u i + a * (A i 0%nat * u i) + b * (A i 1%nat * u i))) by (intros i _; rewrite DD; ring).
    rewrite !sumn_plus, !sumn_scal. change (sumn r (fun i => u i)) with (sumn r u). rewrite S0, X, Y. ring. }
  assert (O' : sumn (S r) (fun i => D i * u' i) = 0).
  { rewrite (sumn_ext (S r) _ (fun i => c * u' i + a * (A i 0%nat * u' i) + b * (A i 1%nat * u' i))) by (intros i _; rewrite DD; ring).
    rewrite !sumn_plus, !sumn_scal. change (sumn (S r) (fun i => u' i)) with (sumn (S r) u'). rewrite S', X', Y'. ring. }
  assert (Q : sumn r (fun i => D i * D i) = e * D r).
  { cbn [sumn] in O'. change (u' r) with e in O'.
    rewrite (sumn_ext r (fun i => D i * u' i) (fun i => D i * u i - D i * D i)) in O' by (intros i _; rewrite UU; ring).
    rewrite sumn_minus, O in O'. lra. }
  assert (P : 0 <= sumn r (fun i => D i * D i)) by (apply sumn_nonneg; intros; apply Rle_0_sqr).
  assert (RS : rss (S r) A m' = rss r A m + e * v).
  { unfold rss. cbn [sumn]. fold e.
    rewrite (sumn_ext r (fun i => (A i 2%nat - fitted (S r) A m' i) * _) (fun i => u i * u i - 2 * (D i * u i) + D i * D i))
      by (intros i _; fold (u' i); rewrite UU; ring).
    rewrite sumn_plus, sumn_minus, sumn_scal, O, Q. change (sumn r (fun i => (A i 2%nat - fitted r A m i) * (A i 2%nat - fitted r A m i))) with (sumn r (fun i => u i * u i)).
    rewrite EV. ring. }
  assert (ZD : D r = 0 \/ e = 0 -> a = 0 /\ b = 0 /\ forall i, D i = 0).
  { intros H. assert (Z : forall i, (i < r)%nat -> D i = 0) by (apply sumn_sq_zero; rewrite Q; destruct H as [-> | ->]; ring).
    assert (AB : a = 0 /\ b = 0).
    { destruct (Req_dec a 0) as [A0|A0]; [destruct (Req_dec b 0) as [B0|B0]; auto|]; exfalso; apply NC; exists a, b, (- c); split; auto;
      intros i I; specialize (Z i I); rewrite DD in Z; lra. }
    destruct AB as [A0 B0]. split; [exact A0|]. split; [exact B0|].
    intros i. specialize (Z 0%nat R0). rewrite DD in Z. rewrite DD. rewrite A0, B0 in *. lra. }
  assert (SV : (D r = 0 \/ e = 0) -> v = 0).
  { intros H. destruct (ZD H) as (_ & _ & Z). cbn [sumn] in S'. change (u' r) with e in S'.
    rewrite (sumn_ext r u' u) in S' by (intros i _; rewrite UU, Z; ring). rewrite (Z r) in EV. lra. }
  split; [|split; [|split; [|split; [|split]]]]; auto.
  - rewrite Q in P. rewrite EV in *. nra.
  - rewrite Q in P. rewrite EV in *. nra.
  - intros V0. assert (D0 : D r = 0) by (rewrite Q in P; rewrite EV, V0 in P; nra).
    destruct (ZD (or_introl D0)) as (A0 & B0 & Z). unfold a in A0. unfold b in B0. split; [lra|]. split; [lra|exact Z].
  - intros NV. assert (ND : D r <> 0) by (intros H; apply NV, SV; auto). assert (NE : e <> 0) by (intros H; apply NV, SV; auto).
    rewrite Q in P. assert (0 < e * D r) by (destruct P as [P|P]; [exact P|]; symmetry in P; apply Rmult_integral in P; tauto).
    assert (0 < e * e) by nra. assert (0 < D r * D r) by nra. replace v with (e + D r) by lra. nra.
Qed.

Example C233_ex : forall inv, numpy_inv inv ->
  let A := array_of [V3 1 1 0; V3 1 (-1) 2; V3 (-1) 1 2; V3 (-1) (-1) 0; V3 0 0 6] in
  exists m m', rbind (Regression 4 3 A) (coefs inv) = Ok m /\ rbind (Regression 5 3 A) (coefs inv) = Ok m' /\
  0 < (6 - fitted 5 A m' 4) * 5 < 25.
Proof.
  intros inv HI A.
  assert (N : ~ collinear_xy 4 A).
  { intros (u & v & w & U & H). pose proof (H 0%nat ltac:(lia)) as H0. pose proof (H 1%nat ltac:(lia)) as H1. pose proof (H 2%nat ltac:(lia)) as H2.
    unfold A, array_of in H0, H1, H2. cbn [nth vx vy vz] in H0, H1, H2. lra. }
  destruct (proj1 (proj2 (C78_defined inv 4 A HI ltac:(lia))) N) as [m F].
  destruct (C233_added inv 4 A m HI ltac:(lia) F) as (m' & F' & T). exists m, m'. split; auto. split; auto. cbv zeta in T.
  assert (V : fitted 4 A m 4 = 1).
  { unfold fitted, col_mean, A, array_of. cbn [sumn nth vx vy vz]. simpl INR. field. }
  destruct T as (_ & _ & _ & _ & _ & T). rewrite V in T. change (A 4%nat 2%nat) with 6 in T.
  destruct T as [T _]; [lra|]. replace (6 - 1) with 5 in T by ring. lra.
Qed.

(** diagonal entries of the inverse of a Gram matrix: the least sum of squares of a
    combination of the columns in which column [j] has weight one *)
Lemma least_form : forall n k C B j, is_inverse k (matrix_squared n C) B -> (j < k)%nat ->
  let x l := B l j in
  sumn n (fun i => mulv k C x i * mulv k C x i) = B j j /\
  forall w, w j * w j <= B j j * sumn n (fun i => mulv k C w i * mulv k C w i).
Proof.
  intros n k C B j [HB _] J x.
  assert (GX : forall l, (l < k)%nat -> mulv k (matrix_squared n C) x l = idn l j) by (intros l L; exact (HB l j L J)).
  assert (one : forall f, sumn k (fun l => f l * idn l j) = f j).
  { intros f. rewrite <- (sumn_delta k j f J). apply sumn_ext. intros l _. unfold idn. ring. }
  assert (Q : sumn n (fun i => mulv k C x i * mulv k C x i) = B j j).
  { rewrite <- gram_quad. rewrite (sumn_ext k _ (fun l => x l * idn l j)) by (intros l L; now rewrite GX). now rewrite one. }
  split; [exact Q|]. intros w.
  assert (X : sumn n (fun i => mulv k C w i * mulv k C x i) = w j).
  { rewrite <- (one w). rewrite (sumn_ext k (fun l => w l * idn l j) (fun l => sumn n (fun i => w l * (C i l * mulv k C x i)))).
    - rewrite sumn_swap. apply sumn_ext. intros i _. unfold mulv at 1. rewrite <- sumn_scal_r. apply sumn_ext. intros; ring.
    - intros l L. rewrite <- GX by auto. rewrite gram_mulv, <- sumn_scal. reflexivity. }
  set (W := sumn n (fun i => mulv k C w i * mulv k C w i)).
  destruct (Req_dec (B j j) 0) as [Z|NZ].
  - rewrite Z in Q. pose proof (sumn_sq_zero n _ Q) as Z0. cbv beta in Z0.
    rewrite (sumn_ext n _ (fun _ => 0)) in X by (intros i I; rewrite Z0; auto; ring). rewrite sumn_zero in X. rewrite <- X, Z. lra.
  - assert (P : 0 <= B j j) by (rewrite <- Q; apply sumn_nonneg; intros; apply Rle_0_sqr).
    set (t := w j / B j j).
    assert (S : 0 <= sumn n (fun i => (mulv k C w i - t * mulv k C x i) * (mulv k C w i - t * mulv k C x i))) by (apply sumn_nonneg; intros; apply Rle_0_sqr).
    rewrite (sumn_ext n _ (fun i => mulv k C w i * mulv k C w i - 2 * t * (mulv k C w i * mulv k C x i) + t * t * (mulv k C x i * mulv k C x i))) in S by (intros; ring).
    rewrite sumn_plus, sumn_minus, !sumn_scal, Q, X in S. fold W in S.
    assert (T : W - 2 * t * w j + t * t * B j j = W - w j * w j / B j j) by (unfold t; field; auto). rewrite T in S.
    apply Rmult_le_reg_l with (/ B j j); [apply Rinv_0_lt_compat; lra|].
    replace (/ B j j * (B j j * W)) with W by (field; auto). unfold Rdiv in S. lra.
Qed.

(** One more observation never widens the design: no diagonal entry of the inverse normal
    matrix grows. *)
Theorem C233_design : forall r A B B' j, (0 < r)%nat -> (j < 3)%nat ->
  is_inverse 3 (normal_matrix r A) B -> is_inverse 3 (normal_matrix (S r) A) B' ->
  0 < B' j j <= B j j.
Proof.
  intros r A B B' j R0 J HB HB'.
  destruct (least_form r 3 (regressor r A) B j HB J) as [Q L]. destruct (least_form (S r) 3 (regressor (S r) A) B' j HB' J) as [Q' L'].
  assert (P' : 0 < B' j j).
  { specialize (L' (fun l => idn l j)). cbv beta in L'. unfold idn at 1 2 in L'. rewrite Nat.eqb_refl in L'.
    assert (0 <= B' j j) by (rewrite <- Q'; apply sumn_nonneg; intros; apply Rle_0_sqr). destruct (Req_dec (B' j j) 0) as [Z|]; [rewrite Z in L'; lra|lra]. }
  split; [exact P'|].
  destruct (Nat.eq_dec j 2) as [->|NJ].
  - assert (I : B 2%nat 2%nat = / INR r).
    { apply (intercept r A R0 B). eapply inverse_ext; [apply normal_matrix_ok|apply meq_refl|exact HB]. }
    assert (I' : B' 2%nat 2%nat = / INR (S r)).
    { apply (intercept (S r) A ltac:(lia) B'). eapply inverse_ext; [apply normal_matrix_ok|apply meq_refl|exact HB']. }
    rewrite I, I', S_INR. pose proof (INR0 r R0). apply Rinv_le_contravar; lra.
  - set (dx := col_mean r A 0 - col_mean (S r) A 0). set (dy := col_mean r A 1 - col_mean (S r) A 1).
    set (w := fun l => match l with 2%nat => B' 2%nat j + B' 0%nat j * dx + B' 1%nat j * dy | _ => B' l j end).
    specialize (L w). assert (WJ : w j = B' j j) by (unfold w; destruct j as [|[|[|]]]; auto; lia). rewrite WJ in L.
    assert (EW : forall i, mulv 3 (regressor r A) w i = mulv 3 (regressor (S r) A) (fun l => B' l j) i).
    { intros i. unfold mulv. cbn [sumn]. unfold regressor, w, dx, dy. ring. }
    rewrite (sumn_ext r _ (fun i => mulv 3 (regressor (S r) A) (fun l => B' l j) i * mulv 3 (regressor (S r) A) (fun l => B' l j) i)) in L by (intros i _; now rewrite EW).
    cbn [sumn] in Q'. assert (0 <= mulv 3 (regressor (S r) A) (fun l => B' l j) r * mulv 3 (regressor (S r) A) (fun l => B' l j) r) by apply Rle_0_sqr.
    assert (P : 0 <= B j j) by (rewrite <- Q; apply sumn_nonneg; intros; apply Rle_0_sqr).
    assert (L2 : B' j j * B' j j <= B j j * B' j j) by (eapply Rle_trans; [exact L|]; apply Rmult_le_compat_l; [exact P|]; lra).
    apply Rmult_le_reg_r with (B' j j); auto.
Qed.

Lemma rss_vsse : forall r A m,
  vsse r A (m 0%nat) (m 1%nat) (col_mean r A 2 - m 0%nat * col_mean r A 0 - m 1%nat * col_mean r A 1) = rss r A m.
Proof. intros r A m. unfold vsse, rss. apply sumn_ext. intros i _. cbv zeta. unfold fitted. ring. Qed.

(** three observations are fitted exactly, fewer not at all *)
Lemma few_collinear : forall r A, (0 < r)%nat -> ~ collinear_xy r A -> (3 <= r)%nat.
Proof.
  intros r A R0 N. destruct r as [|[|[|r]]]; try lia; exfalso; apply N.
  - exists 1, 0, (A 0%nat 0%nat). split; [left; lra|]. intros i I. replace i with 0%nat by lia. ring.
  - destruct (Req_dec (A 0%nat 0%nat) (A 1%nat 0%nat)) as [E|E].
    + exists 1, 0, (A 0%nat 0%nat). split; [left; lra|]. intros i I. destruct i as [|[|i]]; [| |lia]; [|rewrite <- E]; ring.
    + exists (A 1%nat 1%nat - A 0%nat 1%nat), (A 0%nat 0%nat - A 1%nat 0%nat),
        ((A 1%nat 1%nat - A 0%nat 1%nat) * A 0%nat 0%nat + (A 0%nat 0%nat - A 1%nat 0%nat) * A 0%nat 1%nat).
      split; [right; lra|]. intros i I. destruct i as [|[|i]]; [| |lia]; ring.
Qed.
Lemma three_exact : forall inv A m, numpy_inv inv -> rbind (Regression 3 3 A) (coefs inv) = Ok m -> rss 3 A m = 0.
Proof.
  intros inv A m HI F. assert (NC : ~ collinear_xy 3 A) by (apply (proj2 (C78_defined inv 3 A HI ltac:(lia))); eauto).
  destruct (C78_least_squares inv 3 A m HI ltac:(lia) F) as (_ & LS). cbv zeta in LS. rewrite rss_vsse in LS.
  set (x0 := A 0%nat 0%nat) in *. set (x1 := A 1%nat 0%nat) in *. set (x2 := A 2%nat 0%nat) in *.
  set (y0 := A 0%nat 1%nat) in *. set (y1 := A 1%nat 1%nat) in *. set (y2 := A 2%nat 1%nat) in *.
  set (z0 := A 0%nat 2%nat) in *. set (z1 := A 1%nat 2%nat) in *. set (z2 := A 2%nat 2%nat) in *.
  set (D := (x1 - x0) * (y2 - y0) - (x2 - x0) * (y1 - y0)).
  assert (ND : D <> 0).
  { intros Z. apply NC. destruct (Req_dec (x1 - x0) 0) as [X|X]; [destruct (Req_dec (y1 - y0) 0) as [Y|Y]|].
    - destruct (Req_dec (x2 - x0) 0) as [X'|X'].
      + exists 1, 0, x0. split; [left; lra|]. intros i I. destruct i as [|[|[|i]]]; [fold x0|fold x1|fold x2|lia]; lra.
      + exists (y2 - y0), (- (x2 - x0)), ((y2 - y0) * x0 - (x2 - x0) * y0). split; [right; lra|].
        assert (x1 = x0) by lra. assert (y1 = y0) by lra.
        intros i I. destruct i as [|[|[|i]]]; [fold x0 y0; ring|fold x1 y1|fold x2 y2; ring|lia]. rewrite H, H0. ring.
    - exists (y1 - y0), (- (x1 - x0)), ((y1 - y0) * x0 - (x1 - x0) * y0). split; [left; lra|].
      intros i I. destruct i as [|[|[|i]]]; [fold x0 y0; ring|fold x1 y1; ring|fold x2 y2|lia]. unfold D in Z. lra.
    - exists (y1 - y0), (- (x1 - x0)), ((y1 - y0) * x0 - (x1 - x0) * y0). split; [right; lra|].
      intros i I. destruct i as [|[|[|i]]]; [fold x0 y0; ring|fold x1 y1; ring|fold x2 y2|lia]. unfold D in Z. lra. }
  set (a := ((z1 - z0) * (y2 - y0) - (z2 - z0) * (y1 - y0)) / D). set (b := ((x1 - x0) * (z2 - z0) - (x2 - x0) * (z1 - z0)) / D).
  assert (Z : vsse 3 A a b (z0 - a * x0 - b * y0) = 0).
  { assert (E1 : z1 - (a * x1 + b * y1 + (z0 - a * x0 - b * y0)) = 0) by (unfold a, b, D in *; field; auto).
    assert (E2 : z2 - (a * x2 + b * y2 + (z0 - a * x0 - b * y0)) = 0) by (unfold a, b, D in *; field; auto).
    unfold vsse. cbn [sumn]. cbv zeta. fold x0 x1 x2 y0 y1 y2 z0 z1 z2. rewrite E1, E2. ring. }
  pose proof (proj1 (LS a b (z0 - a * x0 - b * y0))) as L. rewrite Z in L.
  assert (0 <= rss 3 A m) by (apply sumn_nonneg; intros; apply Rle_0_sqr). lra.
Qed.

(** The variances that regression reports grow at most by the factor by which the residual sum
    of squares does; an observation on the plane widens none of them. *)
Theorem C233_errors : forall inv r A m V j, numpy_inv inv -> (0 < r)%nat -> (j < 3)%nat ->
  rbind (Regression r 3 A) (coefs inv) = Ok m -> rbind (Regression r 3 A) (covariance inv) = Ok V ->
  exists m' V', rbind (Regression (S r) 3 A) (coefs inv) = Ok m' /\ rbind (Regression (S r) 3 A) (covariance inv) = Ok V' /\
  rss r A m <= rss (S r) A m' /\
  V' j j * rss r A m <= V j j * rss (S r) A m' /\
  (A r 2%nat = fitted r A m r -> V' j j <= V j j).
Proof.
  intros inv r A m V j HI R0 J F EV.
  assert (R3 : (3 <= r)%nat) by (apply (few_collinear r A R0), (proj2 (C78_defined inv r A HI R0)); eauto).
  destruct (C233_added inv r A m HI R0 F) as (m' & F' & (EP & _) & _ & _ & RS & _). cbv zeta in *.
  destruct (covariance3 inv r A m HI R0 F) as (B & V0 & HB & E & W). rewrite E in EV. injection EV as ->.
  destruct (covariance3 inv (S r) A m' HI ltac:(lia) F') as (B' & V' & HB' & E' & W').
  exists m', V'. split; [exact F'|]. split; [exact E'|].
  cbv zeta in W, W'. rewrite rss_vsse in W, W'. rewrite W, W'.
  destruct (Nat.eqb_spec (S r) 3); [lia|].
  destruct (C233_design r A B B' j R0 J HB HB') as [P L].
  assert (N : 0 <= rss r A m) by (apply sumn_nonneg; intros; apply Rle_0_sqr).
  assert (M : rss r A m <= rss (S r) A m') by lra.
  destruct (Nat.eqb_spec r 3) as [T|T].
  { subst r. rewrite (three_exact inv A m HI F) in *. split; [exact M|]. split; [lra|]. intros V1. rewrite RS, V1. lra. }
  split; [exact M|]. split.
  - replace (rss (S r) A m' * B' j j * rss r A m) with (rss (S r) A m' * rss r A m * B' j j) by ring.
    replace (rss r A m * B j j * rss (S r) A m') with (rss (S r) A m' * rss r A m * B j j) by ring.
    apply Rmult_le_compat_l; [|exact L]. apply Rmult_le_pos; lra.
  - intros V1. assert (X : rss (S r) A m' = rss r A m) by (rewrite RS, V1; ring). rewrite X. now apply Rmult_le_compat_l.
Qed.

Example C233_errors_ex : forall inv, numpy_inv inv ->
  let A := array_of [V3 1 1 0; V3 1 (-1) 2; V3 (-1) 1 2; V3 (-1) (-1) 0; V3 5 3 1] in
  exists m V m' V', rbind (Regression 4 3 A) (coefs inv) = Ok m /\ rbind (Regression 4 3 A) (covariance inv) = Ok V /\
  rbind (Regression 5 3 A) (coefs inv) = Ok m' /\ rbind (Regression 5 3 A) (covariance inv) = Ok V' /\
  A 4%nat 2%nat = fitted 4 A m 4 /\ V' 0%nat 0%nat <= V 0%nat 0%nat.
Proof.
  intros inv HI A.
  assert (N : ~ collinear_xy 4 A).
  { intros (u & v & w & U & H). pose proof (H 0%nat ltac:(lia)) as H0. pose proof (H 1%nat ltac:(lia)) as H1. pose proof (H 2%nat ltac:(lia)) as H2.
    unfold A, array_of in H0, H1, H2. cbn [nth vx vy vz] in H0, H1, H2. lra. }
  destruct (proj1 (proj2 (C78_defined inv 4 A HI ltac:(lia))) N) as [m F].
  destruct (covariance3 inv 4 A m HI ltac:(lia) F) as (_ & V & _ & E & _).
  destruct (C233_errors inv 4 A m V 0 HI ltac:(lia) ltac:(lia) F E) as (m' & V' & F' & E' & _ & _ & T).
  assert (P : A 4%nat 2%nat = fitted 4 A m 4).
  { destruct (fitted_residual inv 4 A m HI ltac:(lia) F) as (_ & X & Y). revert X Y.
    unfold fitted, col_mean, A, array_of. cbn [sumn nth vx vy vz]. simpl INR. intros X Y.
    assert (m 0%nat = 0) by lra. assert (m 1%nat = 0) by lra. lra. }
  exists m, V, m', V'. auto 10.
Qed.

Print Assumptions C233_added.
Print Assumptions C233_design.
Print Assumptions C233_errors.
