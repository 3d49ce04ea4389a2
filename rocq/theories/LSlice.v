(** Lemmas for slices of quadrics and singular values in n dimensions. *)
From Coq Require Import Reals Lra Lia List Arith Bool Psatz.
From Verif Require Import RVec Trig LNum SpecConics MConics LConics.
Import ListNotations.
Open Scope R_scope.

Lemma nth_app_l : forall (l : list vecn) p j, (j < length l)%nat -> nth j (l ++ [p]) (fun _ => 0) = nth j l (fun _ => 0).
Proof. intros. now rewrite app_nth1. Qed.
Lemma nth_app_end : forall (l : list vecn) p, nth (length l) (l ++ [p]) (fun _ => 0) = p.
Proof. intros. rewrite app_nth2 by lia. now rewrite Nat.sub_diag. Qed.

Definition slice_point (axes : list vecn) (pt u : vecn) : vecn := fun i =>
  pt i + sumn (length axes) (fun j => u j * nth j axes (fun _ => 0) i).
Lemma slice_matrix_point : forall k axes pt u, length axes = k ->
  veq (S (S k)) (mulv (S k) (slice_matrix (S k) axes pt) (augment k u)) (augment (S k) (slice_point axes pt u)).
Proof.
  intros k axes pt u L i I. unfold mulv. cbn [sumn].
  destruct (Nat.eq_dec i (S k)) as [->|h].
  - rewrite augment_n, augment_n. rewrite sumn_0.
    + unfold slice_matrix. rewrite Nat.eqb_refl. destruct (Nat.eqb_spec k (S k - 1)); [ring|lia].
    + intros j J. unfold slice_matrix. rewrite Nat.eqb_refl. destruct (Nat.eqb_spec j (S k - 1)); [lia|ring].
  - rewrite (augment_lt (S k)) by lia. unfold slice_point. rewrite L.
    rewrite (sumn_ext k _ (fun j => u j * nth j axes (fun _ => 0) i)).
    + rewrite augment_n. unfold slice_matrix. destruct (Nat.eqb_spec i (S k)); [lia|].
      rewrite <- L at 2. rewrite nth_app_end. ring.
    + intros j J. rewrite augment_lt by lia. unfold slice_matrix. destruct (Nat.eqb_spec i (S k)); [lia|].
      rewrite nth_app_l by lia. ring.
Qed.
Lemma slice_value : forall k C axes pt u, length axes = k ->
  value k (transform (S k) C (slice_matrix (S k) axes pt)) u = value (S k) C (slice_point axes pt u).
Proof.
  intros k C axes pt u L. rewrite <- !solve_value. rewrite solve_transform, !solve_bil.
  apply bil_ext; [apply meq_refl| |]; now apply slice_matrix_point.
Qed.

(** points in and along a line of sight *)
Lemma value_towards : forall n C p w t, symmetric (S n) C ->
  value n C (towards p w t) = (1 - t) * (1 - t) * value n C p + 2 * (t * (1 - t)) * bil (S n) C (augment n p) (augment n w)
     + t * t * value n C w.
Proof.
  intros n C p w t S0. rewrite <- !bil_value.
  assert (E : veq (S n) (augment n (towards p w t)) (vplus (vtimes (1 - t) (augment n p)) (vtimes t (augment n w)))).
  { intros i I. unfold vplus, vtimes, augment, towards. destruct (i <? n)%nat; ring. }
  rewrite (bil_ext (S n) C C _ _ _ _ (meq_refl _ _ C) E E).
  rewrite bil_plus_l, !bil_plus_r, !bil_scal_l, !bil_scal_r.
  rewrite (bil_sym (S n) C (augment n w) (augment n p) S0). ring.
Qed.
Lemma polar_value : forall n C w p,
  plane_value n (polar_plane n C w) p = bil (S n) C (augment n p) (augment n w).
Proof.
  intros n C w p. rewrite bil_mulv. unfold plane_value, polar_plane, dotn. cbn [sumn]. rewrite augment_n.
  rewrite (sumn_ext n (fun i => augment n p i * mulv (S n) C (augment n w) i) (fun i => mulv (S n) C (augment n w) i * p i)).
  - ring. - intros i I. rewrite augment_lt by auto. ring.
Qed.

(** right singular vectors are eigenvectors of A'A *)
Lemma svd_av : forall n A U s V k i, is_svdn n A U s V -> (k < n)%nat -> (i < n)%nat ->
  sumn n (fun j => A i j * V k j) = U i k * s k.
Proof.
  intros n A U s V k i (_ & (OV & _) & _ & _ & E) K I.
  rewrite (sumn_ext n _ (fun j => sumn n (fun l => U i l * s l * (V l j * V k j)))).
  2:{ intros j J. rewrite E by auto. rewrite <- sumn_scal_r. apply sumn_ext. intros; ring. }
  rewrite sumn_swap. rewrite (sumn_ext n _ (fun l => (if (l =? k)%nat then 1 else 0) * (U i l * s l))).
  - rewrite sumn_delta by auto. ring.
  - intros l L. rewrite sumn_scal. pose proof (OV l k L K) as O. unfold mulm, trn, idn in O. rewrite O. ring.
Qed.
Lemma svd_atu : forall n A U s V k j, is_svdn n A U s V -> (k < n)%nat -> (j < n)%nat ->
  sumn n (fun i => A i j * U i k) = s k * V k j.
Proof.
  intros n A U s V k j ((_ & OU) & _ & _ & _ & E) K J.
  rewrite (sumn_ext n _ (fun i => sumn n (fun l => s l * V l j * (U i l * U i k)))).
  2:{ intros i I. rewrite E by auto. rewrite <- sumn_scal_r. apply sumn_ext. intros; ring. }
  rewrite sumn_swap. rewrite (sumn_ext n _ (fun l => (if (l =? k)%nat then 1 else 0) * (s l * V l j))).
  - rewrite sumn_delta by auto. ring.
  - intros l L. rewrite sumn_scal. pose proof (OU l k L K) as O. unfold mulm, trn, idn in O. rewrite O. ring.
Qed.
(** diagonal matrices: a right singular vector only has entries where the squared
    diagonal is the squared singular value *)
Lemma svd_diag : forall n A U s V k j, is_svdn n A U s V ->
  (forall i l, (i < n)%nat -> (l < n)%nat -> i <> l -> A i l = 0) -> (k < n)%nat -> (j < n)%nat ->
  V k j = 0 \/ Rabs (A j j) = s k.
Proof.
  intros n A U s V k j H D K J.
  assert (DS : forall i f, (i < n)%nat -> sumn n (fun l => A i l * f l) = A i i * f i).
  { intros i f I. rewrite (sumn_ext n _ (fun l => (if (l =? i)%nat then 1 else 0) * (A i l * f l))).
    - now rewrite sumn_delta by auto.
    - intros l L. destruct (Nat.eqb_spec l i); [ring|]. rewrite D by auto. ring. }
  assert (DS' : forall i f, (i < n)%nat -> sumn n (fun l => A l i * f l) = A i i * f i).
  { intros i f I. rewrite (sumn_ext n _ (fun l => (if (l =? i)%nat then 1 else 0) * (A l i * f l))).
    - now rewrite sumn_delta by auto.
    - intros l L. destruct (Nat.eqb_spec l i); [ring|]. rewrite D by auto. ring. }
  pose proof (svd_av n A U s V k j H K J) as E1. rewrite DS in E1 by auto.
  pose proof (svd_atu n A U s V k j H K J) as E2. rewrite (DS' j (fun i => U i k)) in E2 by auto.
  destruct H as (_ & _ & P & _). specialize (P k K).
  destruct (Req_EM_T (V k j) 0) as [h|h]; [now left|right].
  assert (Q : A j j * A j j = s k * s k).
  { apply Rmult_eq_reg_r with (V k j); auto.
    replace (A j j * A j j * V k j) with (A j j * (A j j * V k j)) by ring. rewrite E1.
    replace (A j j * (U j k * s k)) with (s k * (A j j * U j k)) by ring. rewrite E2. ring. }
  assert (Q' : Rabs (A j j) * Rabs (A j j) = s k * s k) by (rewrite <- Rabs_mult, Q; apply Rabs_pos_eq; nra).
  pose proof (Rabs_pos (A j j)). nra.
Qed.
Lemma svd_row_unit : forall n A U s V k, is_svdn n A U s V -> (k < n)%nat -> sumn n (fun j => V k j * V k j) = 1.
Proof.
  intros n A U s V k (_ & (OV & _) & _) K. pose proof (OV k k K K) as O. unfold mulm, trn, idn in O. rewrite Nat.eqb_refl in O. exact O.
Qed.
(** the value read at n = 2 and 3 *)
Lemma sumn2 : forall f, sumn 2 f = f 0%nat + f 1%nat. Proof. intros. simpl. ring. Qed.
Lemma sumn3 : forall f, sumn 3 f = f 0%nat + f 1%nat + f 2%nat. Proof. intros. simpl. ring. Qed.
