(** C232: what a changed height does to a regression. *)
From Coq Require Import Reals Lra Lia List Arith Psatz.
From Verif Require Import RVec Trig LNum SpecConics MConics LConics SpecLinear MAxes MLinear LLinear PLinear.
Import ListNotations.
Open Scope R_scope.

(** height of the fitted plane at observation i: it passes through the mean *)
Definition fitted (r : nat) (A : matn) (m : vecn) (i : nat) : R :=
  col_mean r A 2 + m 0%nat * (A i 0%nat - col_mean r A 0) + m 1%nat * (A i 1%nat - col_mean r A 1).

Lemma fitted_residual : forall inv r A m, numpy_inv inv -> (0 < r)%nat -> rbind (Regression r 3 A) (coefs inv) = Ok m ->
  sumn r (fun i => A i 2%nat - fitted r A m i) = 0 /\
  sumn r (fun i => A i 0%nat * (A i 2%nat - fitted r A m i)) = 0 /\
  sumn r (fun i => A i 1%nat * (A i 2%nat - fitted r A m i)) = 0.
Proof.
  intros inv r A m HI R0 H. destruct (C78_least_squares inv r A m HI R0 H) as (M2 & _).
  assert (E : exists e, rbind (Regression r 3 A) (reg_residuals inv) = Ok e /\ forall i, e i = A i 2%nat - fitted r A m i).
  { rewrite (reg3 r A R0) in *. cbn [rbind] in *. unfold reg_residuals. rewrite H. cbn [rbind]. eexists. split; [reflexivity|].
    intros i. cbn [g_Z g_k g_C]. unfold mulv, fitted, centered_nd, col_mean. cbn [sumn Nat.ltb Nat.leb]. rewrite M2. ring. }
  destruct E as (e & E & V). destruct (C78_residuals inv r A e HI R0 E) as (S & X & Y).
  rewrite (sumn_ext r _ e) by (intros; symmetry; apply V).
  rewrite (sumn_ext r (fun i => A i 0%nat * _) (fun i => A i 0%nat * e i)) by (intros; now rewrite V).
  rewrite (sumn_ext r (fun i => A i 1%nat * _) (fun i => A i 1%nat * e i)) by (intros; now rewrite V). auto.
Qed.

Lemma mean_same : forall r A A' j, (forall i, (i < r)%nat -> A' i j = A i j) -> col_mean r A' j = col_mean r A j.
Proof. intros r A A' j H. unfold col_mean. f_equal. apply sumn_ext. auto. Qed.

(** The planes fitted to two sets of heights at the same places are no further apart than
    the heights. *)
Theorem C232_contraction : forall inv r A A' m m', numpy_inv inv -> (0 < r)%nat ->
  (forall i, (i < r)%nat -> A' i 0%nat = A i 0%nat /\ A' i 1%nat = A i 1%nat) ->
  rbind (Regression r 3 A) (coefs inv) = Ok m -> rbind (Regression r 3 A') (coefs inv) = Ok m' ->
  let D i := fitted r A' m' i - fitted r A m i in let E i := A' i 2%nat - A i 2%nat in
  sumn r (fun i => D i * E i) = sumn r (fun i => D i * D i) /\
  sumn r D = sumn r E /\
  sumn r (fun i => D i * D i) <= sumn r (fun i => E i * E i).
Proof.
  intros inv r A A' m m' HI R0 SX F F' D E.
  destruct (fitted_residual inv r A m HI R0 F) as (S & X & Y). destruct (fitted_residual inv r A' m' HI R0 F') as (S' & X' & Y').
  pose proof (mean_same r A A' 0 (fun i I => proj1 (SX i I))) as M0. pose proof (mean_same r A A' 1 (fun i I => proj2 (SX i I))) as M1.
  set (u := fun i => A i 2%nat - fitted r A m i) in *. set (u' := fun i => A' i 2%nat - fitted r A' m' i) in *.
  assert (X1 : sumn r (fun i => A i 0%nat * u i) = 0) by exact X. assert (Y1 : sumn r (fun i => A i 1%nat * u i) = 0) by exact Y.
  assert (S1 : sumn r u = 0) by exact S. assert (S2 : sumn r u' = 0) by exact S'.
  assert (X2 : sumn r (fun i => A i 0%nat * u' i) = 0) by (rewrite <- X'; apply sumn_ext; intros i I; rewrite (proj1 (SX i I)); reflexivity).
  assert (Y2 : sumn r (fun i => A i 1%nat * u' i) = 0) by (rewrite <- Y'; apply sumn_ext; intros i I; rewrite (proj2 (SX i I)); reflexivity).
  set (c := col_mean r A' 2 - col_mean r A 2 - (m' 0%nat - m 0%nat) * col_mean r A 0 - (m' 1%nat - m 1%nat) * col_mean r A 1).
  assert (DD : forall i, (i < r)%nat -> D i = c + (m' 0%nat - m 0%nat) * A i 0%nat + (m' 1%nat - m 1%nat) * A i 1%nat).
  { intros i I. unfold D, fitted, c. destruct (SX i I) as (-> & ->). rewrite M0, M1. ring. }
  assert (EE : forall i, E i = D i + (u' i - u i)) by (intros i; unfold E, D, u, u'; ring).
  assert (O : sumn r (fun i => D i * (u' i - u i)) = 0).
  { rewrite (sumn_ext r _ (fun i => c * (u' i) + (m' 0%nat - m 0%nat) * (A i 0%nat * u' i) + (m' 1%nat - m 1%nat) * (A i 1%nat * u' i)
       - (c * u i + (m' 0%nat - m 0%nat) * (A i 0%nat * u i) + (m' 1%nat - m 1%nat) * (A i 1%nat * u i)))) by (intros i I; rewrite (DD i I); ring).
    rewrite sumn_minus, !sumn_plus, !sumn_scal. change (sumn r (fun i => u' i)) with (sumn r u'). change (sumn r (fun i => u i)) with (sumn r u).
    rewrite S1, S2, X1, Y1, X2, Y2. ring. }
  split; [|split].
  - rewrite (sumn_ext r _ (fun i => D i * D i + D i * (u' i - u i))) by (intros i _; rewrite EE; ring). rewrite sumn_plus, O. ring.
  - rewrite (sumn_ext r E (fun i => D i + (u' i - u i))) by (intros; apply EE). rewrite sumn_plus, sumn_minus.
    change (sumn r (fun i => u' i)) with (sumn r u'). change (sumn r (fun i => u i)) with (sumn r u). change (sumn r (fun i => D i)) with (sumn r D). rewrite S1, S2. ring.
  - rewrite (sumn_ext r (fun i => E i * E i) (fun i => D i * D i + 2 * (D i * (u' i - u i)) + (u' i - u i) * (u' i - u i))) by (intros i _; rewrite EE; ring).
    rewrite !sumn_plus, sumn_scal, O. assert (0 <= sumn r (fun i => (u' i - u i) * (u' i - u i))) by (apply sumn_nonneg; intros; apply Rle_0_sqr). lra.
Qed.

Lemma sumn_one : forall r k f, (k < r)%nat -> (forall i, (i < r)%nat -> i <> k -> f i = 0) -> sumn r f = f k.
Proof.
  induction r as [|r IH]; intros k f K Z; [lia|]. cbn [sumn]. destruct (Nat.eq_dec k r) as [->|NK].
  - rewrite (sumn_ext r f (fun _ => 0)) by (intros i I; apply Z; lia). replace (sumn r (fun _ => 0)) with 0; [ring|].
    clear. induction r; [reflexivity|]. cbn [sumn]. rewrite <- IHr. ring.
  - rewrite (IH k f) by (try lia; intros; apply Z; lia). rewrite (Z r) by lia. ring.
Qed.
Lemma sumn_sq_mean : forall r f, sumn r f * sumn r f <= INR r * sumn r (fun i => f i * f i).
Proof.
  induction r as [|r IH]; intros f; [simpl; lra|]. cbn [sumn]. rewrite S_INR. specialize (IH f).
  set (s := sumn r f) in *. set (q := sumn r (fun i => f i * f i)) in *. set (x := f r).
  destruct r as [|r]. { assert (s = 0) by reflexivity. assert (q = 0) by reflexivity. simpl INR. nra. }
  assert (N : 0 < INR (S r)) by (apply lt_0_INR; lia). set (n := INR (S r)) in *.
  assert (T : 0 <= (s - n * x) * (s - n * x) / n) by (apply Rmult_le_pos; [apply Rle_0_sqr|left; now apply Rinv_0_lt_compat]).
  assert (E : (s - n * x) * (s - n * x) / n = s * s / n - 2 * (s * x) + n * (x * x)) by (field; lra).
  assert (B : s * s / n <= q). { apply Rmult_le_reg_r with n; auto. replace (s * s / n * n) with (s * s) by (field; lra). lra. }
  lra.
Qed.

(** A height changed by [delta] takes the plane along at its place, by at least delta/n and
    never further than it went itself. *)
Theorem C232_leverage : forall inv r A A' m m' k delta, numpy_inv inv -> (k < r)%nat ->
  (forall i, (i < r)%nat -> A' i 0%nat = A i 0%nat /\ A' i 1%nat = A i 1%nat /\ (i <> k -> A' i 2%nat = A i 2%nat)) ->
  A' k 2%nat = A k 2%nat + delta ->
  rbind (Regression r 3 A) (coefs inv) = Ok m -> rbind (Regression r 3 A') (coefs inv) = Ok m' ->
  delta * delta / INR r <= delta * (fitted r A' m' k - fitted r A m k) <= delta * delta.
Proof.
  intros inv r A A' m m' k delta HI K SX HK F F'.
  destruct (C232_contraction inv r A A' m m' HI ltac:(lia) (fun i I => conj (proj1 (SX i I)) (proj1 (proj2 (SX i I)))) F F') as (DE & SE & LE).
  set (D := fun i => fitted r A' m' i - fitted r A m i) in *. set (E := fun i => A' i 2%nat - A i 2%nat) in *.
  assert (DE' : sumn r (fun i => D i * E i) = sumn r (fun i => D i * D i)) by exact DE.
  assert (LE' : sumn r (fun i => D i * D i) <= sumn r (fun i => E i * E i)) by exact LE.
  assert (SE' : sumn r D = sumn r E) by exact SE. clear DE LE SE.
  assert (E0 : forall i, (i < r)%nat -> i <> k -> E i = 0) by (intros i I N; unfold E; rewrite (proj2 (proj2 (SX i I)) N); ring).
  assert (EK : E k = delta) by (unfold E; lra).
  rewrite (sumn_one r k (fun i => D i * E i)), EK in DE' by (auto; intros i I N; rewrite E0; auto; ring).
  rewrite (sumn_one r k (fun i => E i * E i)), EK in LE' by (auto; intros i I N; rewrite E0; auto; ring).
  rewrite (sumn_one r k E), EK in SE' by auto.
  change (fitted r A' m' k - fitted r A m k) with (D k). rewrite (Rmult_comm delta (D k)), DE'. split; [|exact LE'].
  pose proof (sumn_sq_mean r D) as Q. rewrite SE' in Q. assert (0 < INR r) by (apply lt_0_INR; lia).
  apply Rmult_le_reg_r with (INR r); auto. replace (delta * delta / INR r * INR r) with (delta * delta) by (field; lra). lra.
Qed.

Example C232_ex : forall inv, numpy_inv inv ->
  exists m m', rbind (Regression 4 3 (array_of [V3 1 1 0; V3 1 (-1) 2; V3 (-1) 1 2; V3 (-1) (-1) 0])) (coefs inv) = Ok m /\
  rbind (Regression 4 3 (array_of [V3 1 1 8; V3 1 (-1) 2; V3 (-1) 1 2; V3 (-1) (-1) 0])) (coefs inv) = Ok m' /\
  2 <= fitted 4 (array_of [V3 1 1 8; V3 1 (-1) 2; V3 (-1) 1 2; V3 (-1) (-1) 0]) m' 0 -
       fitted 4 (array_of [V3 1 1 0; V3 1 (-1) 2; V3 (-1) 1 2; V3 (-1) (-1) 0]) m 0 <= 8.
Proof.
  intros inv HI.
  set (A := array_of [V3 1 1 0; V3 1 (-1) 2; V3 (-1) 1 2; V3 (-1) (-1) 0]). set (A' := array_of [V3 1 1 8; V3 1 (-1) 2; V3 (-1) 1 2; V3 (-1) (-1) 0]).
  assert (N : forall h, ~ collinear_xy 4 (array_of [V3 1 1 h; V3 1 (-1) 2; V3 (-1) 1 2; V3 (-1) (-1) 0])).
  { intros h (u & v & w & U & H). pose proof (H 0%nat ltac:(lia)) as H0. pose proof (H 1%nat ltac:(lia)) as H1. pose proof (H 2%nat ltac:(lia)) as H2.
    unfold array_of in H0, H1, H2. cbn [nth vx vy vz] in H0, H1, H2. lra. }
  destruct (proj1 (proj2 (C78_defined inv 4 A HI ltac:(lia))) (N 0)) as [m F].
  destruct (proj1 (proj2 (C78_defined inv 4 A' HI ltac:(lia))) (N 8)) as [m' F'].
  exists m, m'. split; auto. split; auto.
  assert (B : 8 * 8 / INR 4 <= 8 * (fitted 4 A' m' 0 - fitted 4 A m 0) <= 8 * 8).
  { apply (C232_leverage inv 4 A A' m m' 0 8 HI ltac:(lia)); auto; [|unfold A, A', array_of; cbn [nth vx vy vz]; ring].
    intros i I. destruct i as [|[|[|[|i]]]]; [|auto..|lia]. split; [reflexivity|]. split; [reflexivity|]. intros X. now destruct X. }
  replace (INR 4) with 4 in B by (simpl; ring). lra.
Qed.

Print Assumptions C232_contraction.
Print Assumptions C232_leverage.
