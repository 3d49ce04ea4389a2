(** Vectors and matrices of arbitrary dimension: functions of indices, compared
    on their index range only. *)
From Coq Require Import Reals Lra Lia List Arith.
Open Scope R_scope.

Definition vecn := nat -> R.
Definition matn := nat -> nat -> R.

Fixpoint sumn (n : nat) (f : nat -> R) : R :=
  match n with O => 0 | S k => sumn k f + f k end.

Definition veq (n : nat) (u v : vecn) : Prop := forall i, (i < n)%nat -> u i = v i.
Definition meq (m n : nat) (A B : matn) : Prop := forall i j, (i < m)%nat -> (j < n)%nat -> A i j = B i j.

(** [dotn k u v]: inner product; [mulv k A x]: matrix with k columns times a
    vector; [mulm k A B]: product with inner dimension k *)
Definition dotn (k : nat) (u v : vecn) : R := sumn k (fun i => u i * v i).
Definition mulv (k : nat) (A : matn) (x : vecn) : vecn := fun i => sumn k (fun j => A i j * x j).
Definition vmul_mat (k : nat) (x : vecn) (A : matn) : vecn := fun j => sumn k (fun i => x i * A i j).
Definition mulm (k : nat) (A B : matn) : matn := fun i j => sumn k (fun l => A i l * B l j).
Definition trn (A : matn) : matn := fun i j => A j i.
Definition idn : matn := fun i j => if (i =? j)%nat then 1 else 0.
Definition symmetric (n : nat) (A : matn) : Prop := meq n n A (trn A).

(** B is the two-sided inverse of the n x n matrix A *)
Definition is_inverse (n : nat) (A B : matn) : Prop :=
  meq n n (mulm n A B) idn /\ meq n n (mulm n B A) idn.
Definition invertible (n : nat) (A : matn) : Prop := exists B, is_inverse n A B.

Lemma sumn_ext : forall n f g, (forall i, (i < n)%nat -> f i = g i) -> sumn n f = sumn n g.
Proof. induction n; intros f g H; simpl; auto. rewrite (IHn f g), (H n); auto. Qed.
Lemma sumn_zero : forall n, sumn n (fun _ => 0) = 0.
Proof. induction n; simpl; lra. Qed.
Lemma sumn_0 : forall n f, (forall i, (i < n)%nat -> f i = 0) -> sumn n f = 0.
Proof. intros. rewrite (sumn_ext n f (fun _ => 0)); auto. apply sumn_zero. Qed.
Lemma sumn_plus : forall n f g, sumn n (fun i => f i + g i) = sumn n f + sumn n g.
Proof. induction n; intros; simpl; [lra|]. rewrite IHn. lra. Qed.
Lemma sumn_minus : forall n f g, sumn n (fun i => f i - g i) = sumn n f - sumn n g.
Proof. induction n; intros; simpl; [lra|]. rewrite IHn. lra. Qed.
Lemma sumn_opp : forall n f, sumn n (fun i => - f i) = - sumn n f.
Proof. induction n; intros; simpl; [lra|]. rewrite IHn. lra. Qed.
Lemma sumn_scal : forall n k f, sumn n (fun i => k * f i) = k * sumn n f.
Proof. induction n; intros; simpl; [lra|]. rewrite IHn. lra. Qed.
Lemma sumn_scal_r : forall n k f, sumn n (fun i => f i * k) = sumn n f * k.
Proof. induction n; intros; simpl; [lra|]. rewrite IHn. lra. Qed.
Lemma sumn_swap : forall m n f,
  sumn m (fun i => sumn n (fun j => f i j)) = sumn n (fun j => sumn m (fun i => f i j)).
Proof.
  induction m; intros; simpl. - now rewrite sumn_zero.
  - rewrite IHm, <- sumn_plus. reflexivity.
Qed.
Lemma sumn_delta : forall n k f, (k < n)%nat -> sumn n (fun i => (if (i =? k)%nat then 1 else 0) * f i) = f k.
Proof.
  induction n; intros k f H; [lia|]. simpl. destruct (Nat.eq_dec k n) as [->|h].
  - rewrite Nat.eqb_refl. rewrite sumn_0; [ring|]. intros i Hi. destruct (Nat.eqb_spec i n); [lia|ring].
  - rewrite IHn by lia. destruct (Nat.eqb_spec n k); [lia|ring].
Qed.
Lemma sumn_head : forall n f, sumn (S n) f = f 0%nat + sumn n (fun i => f (S i)).
Proof. induction n; intros f; [simpl; lra|]. change (sumn (S (S n)) f) with (sumn (S n) f + f (S n)). rewrite IHn. simpl. lra. Qed.
Lemma sumn_nonneg : forall n f, (forall i, (i < n)%nat -> 0 <= f i) -> 0 <= sumn n f.
Proof. induction n; intros f H; simpl; [lra|]. assert (0 <= sumn n f) by auto. assert (0 <= f n) by auto. lra. Qed.
Lemma sumn_sq_zero : forall n f, sumn n (fun i => f i * f i) = 0 -> forall i, (i < n)%nat -> f i = 0.
Proof.
  induction n; intros f H i I; [lia|]. simpl in H.
  assert (0 <= sumn n (fun i => f i * f i)) by (apply sumn_nonneg; intros; nra).
  assert (0 <= f n * f n) by nra.
  destruct (Nat.eq_dec i n) as [->|h]; [nra|]. apply IHn; try lia. lra.
Qed.

Lemma meq_refl : forall m n A, meq m n A A. Proof. intros m n A i j _ _. reflexivity. Qed.
Lemma meq_sym : forall m n A B, meq m n A B -> meq m n B A. Proof. intros m n A B H i j I J. symmetry; auto. Qed.
Lemma meq_trans : forall m n A B C, meq m n A B -> meq m n B C -> meq m n A C.
Proof. intros m n A B C H K i j I J. rewrite H, K; auto. Qed.
Lemma mulm_ext : forall m k n A A' B B', meq m k A A' -> meq k n B B' -> meq m n (mulm k A B) (mulm k A' B').
Proof. intros m k n A A' B B' H K i j I J. apply sumn_ext. intros l L. rewrite H, K; auto. Qed.
Lemma mulv_ext : forall m k A A' x y, meq m k A A' -> veq k x y -> veq m (mulv k A x) (mulv k A' y).
Proof. intros m k A A' x y H K i I. apply sumn_ext. intros l L. rewrite H, K; auto. Qed.
Lemma mulm_assoc : forall a b A B C i j, mulm a A (mulm b B C) i j = mulm b (mulm a A B) C i j.
Proof.
  intros. unfold mulm. transitivity (sumn a (fun l => sumn b (fun k => A i l * B l k * C k j))).
  - apply sumn_ext; intros. rewrite <- sumn_scal. apply sumn_ext; intros; ring.
  - rewrite sumn_swap. apply sumn_ext; intros. now rewrite sumn_scal_r.
Qed.
Lemma mulv_assoc : forall a b A B x i, mulv a A (mulv b B x) i = mulv b (mulm a A B) x i.
Proof.
  intros. unfold mulv, mulm. transitivity (sumn a (fun l => sumn b (fun k => A i l * B l k * x k))).
  - apply sumn_ext; intros. rewrite <- sumn_scal. apply sumn_ext; intros; ring.
  - rewrite sumn_swap. apply sumn_ext; intros. now rewrite sumn_scal_r.
Qed.
Lemma mulm_id_l : forall n m A, meq n m (mulm n idn A) A.
Proof.
  intros n m A i j I J. unfold mulm, idn. rewrite (sumn_ext _ _ (fun l => (if (l =? i)%nat then 1 else 0) * A l j)).
  - now apply sumn_delta with (f := fun l => A l j).
  - intros. now rewrite Nat.eqb_sym.
Qed.
Lemma mulm_id_r : forall n m A, meq m n (mulm n A idn) A.
Proof.
  intros n m A i j I J. unfold mulm, idn. rewrite (sumn_ext _ _ (fun l => (if (l =? j)%nat then 1 else 0) * A i l)).
  - now apply sumn_delta with (f := fun l => A i l).
  - intros. ring.
Qed.
Lemma mulv_id : forall n x, veq n (mulv n idn x) x.
Proof.
  intros n x i I. unfold mulv, idn. rewrite (sumn_ext _ _ (fun l => (if (l =? i)%nat then 1 else 0) * x l)).
  - now apply sumn_delta.
  - intros. now rewrite Nat.eqb_sym.
Qed.
Lemma trn_mulm : forall k A B i j, trn (mulm k A B) i j = mulm k (trn B) (trn A) i j.
Proof. intros. unfold trn, mulm. apply sumn_ext; intros; ring. Qed.
Lemma dot_mulv : forall m n A x y, dotn m y (mulv n A x) = dotn n (vmul_mat m y A) x.
Proof.
  intros. unfold dotn, mulv, vmul_mat.
  transitivity (sumn m (fun i => sumn n (fun j => y i * A i j * x j))).
  - apply sumn_ext; intros. rewrite <- sumn_scal. apply sumn_ext; intros; ring.
  - rewrite sumn_swap. apply sumn_ext; intros. now rewrite sumn_scal_r.
Qed.
Lemma dotn_comm : forall n x y, dotn n x y = dotn n y x.
Proof. intros. apply sumn_ext; intros; ring. Qed.
Lemma dotn_ext : forall n x x' y y', veq n x x' -> veq n y y' -> dotn n x y = dotn n x' y'.
Proof. intros n x x' y y' H K. apply sumn_ext. intros. rewrite H, K; auto. Qed.

(** the inverse is unique *)
Lemma inverse_unique : forall n A A' B B', meq n n A A' -> is_inverse n A B -> is_inverse n A' B' -> meq n n B B'.
Proof.
  intros n A A' B B' E [H1 H2] [H3 H4].
  apply meq_trans with (mulm n B idn); [apply meq_sym, mulm_id_r|].
  apply meq_trans with (mulm n B (mulm n A' B')); [apply mulm_ext; [apply meq_refl | now apply meq_sym]|].
  apply meq_trans with (mulm n (mulm n B A) B').
  - intros i j I J. rewrite mulm_assoc. apply mulm_ext with (m := n) (n := n); auto; [|apply meq_refl].
    apply mulm_ext; [apply meq_refl | now apply meq_sym].
  - apply meq_trans with (mulm n idn B'); [|apply mulm_id_l]. apply mulm_ext; auto. apply meq_refl.
Qed.
Lemma inverse_sym : forall n A B, is_inverse n A B -> is_inverse n B A.
Proof. intros n A B [H K]. now split. Qed.
Lemma inverse_ext : forall n A A' B B', meq n n A A' -> meq n n B B' -> is_inverse n A B -> is_inverse n A' B'.
Proof.
  intros n A A' B B' E F [H K]. split.
  - apply meq_trans with (mulm n A B); auto. apply mulm_ext; now apply meq_sym.
  - apply meq_trans with (mulm n B A); auto. apply mulm_ext; now apply meq_sym.
Qed.
Lemma inverse_solve : forall n A B x, is_inverse n A B -> veq n (mulv n A (mulv n B x)) x.
Proof.
  intros n A B x [H _] i I. rewrite mulv_assoc. rewrite (mulv_ext n n _ idn x x); auto; [|intros j _; reflexivity].
  now apply mulv_id.
Qed.
Lemma inverse_trn : forall n A B, is_inverse n A B -> is_inverse n (trn A) (trn B).
Proof.
  intros n A B [H K]. split; intros i j I J.
  - rewrite <- (trn_mulm n B A). unfold trn at 1. rewrite K by auto. unfold idn. now rewrite Nat.eqb_sym.
  - rewrite <- (trn_mulm n A B). unfold trn at 1. rewrite H by auto. unfold idn. now rewrite Nat.eqb_sym.
Qed.
Lemma inverse_symmetric : forall n A B, symmetric n A -> is_inverse n A B -> symmetric n B.
Proof.
  intros n A B S H. apply (inverse_unique n A (trn A)); auto. now apply inverse_trn.
Qed.
Lemma invertible_kernel : forall n A x, invertible n A -> veq n (mulv n A x) (fun _ => 0) -> veq n x (fun _ => 0).
Proof.
  intros n A x [B [_ K]] Z i I. rewrite <- (mulv_id n x i I).
  rewrite <- (mulv_ext n n (mulm n B A) idn x x K) by (auto; intros j _; reflexivity).
  rewrite <- mulv_assoc. unfold mulv at 1. apply sumn_0. intros j J. rewrite Z by auto. ring.
Qed.

(** * Existence of inverses by elimination *)
Definition swap_rows (p : nat) (A : matn) : matn :=
  fun i => A (if (i =? 0)%nat then p else if (i =? p)%nat then 0%nat else i).
Definition swap_cols (p : nat) (A : matn) : matn :=
  fun i j => A i (if (j =? 0)%nat then p else if (j =? p)%nat then 0%nat else j).
Definition sw (p i : nat) : nat := if (i =? 0)%nat then p else if (i =? p)%nat then 0%nat else i.
Lemma sw_invol : forall p i, sw p (sw p i) = i.
Proof.
  intros p i. unfold sw. destruct (Nat.eqb_spec i 0), (Nat.eqb_spec i p), (Nat.eqb_spec p 0); subst;
  repeat match goal with |- context[(?a =? ?b)%nat] => destruct (Nat.eqb_spec a b) end; try lia; subst; auto.
Qed.
Lemma sw_lt : forall p i n, (p < n)%nat -> (i < n)%nat -> (sw p i < n)%nat.
Proof. intros p i n P I. unfold sw. destruct (Nat.eqb_spec i 0); auto. destruct (Nat.eqb_spec i p); lia. Qed.

Lemma sumn_remove : forall n k f, (k < n)%nat -> sumn n f = f k + sumn n (fun i => if (i =? k)%nat then 0 else f i).
Proof.
  intros n k f K. rewrite <- (sumn_delta n k f K). rewrite <- sumn_plus. apply sumn_ext. intros i I.
  destruct (i =? k)%nat; ring.
Qed.
Lemma sumn_sw : forall n p f, (p < n)%nat -> sumn n (fun i => f (sw p i)) = sumn n f.
Proof.
  intros n p f P. destruct (Nat.eq_dec p 0) as [->|h].
  { apply sumn_ext. intros i I. unfold sw. destruct (Nat.eqb_spec i 0); subst; auto. }
  rewrite (sumn_remove n 0 (fun i => f (sw p i))) by lia. rewrite (sumn_remove n 0 f) by lia.
  rewrite (sumn_remove n p (fun i => if (i =? 0)%nat then 0 else f (sw p i))) by auto.
  rewrite (sumn_remove n p (fun i => if (i =? 0)%nat then 0 else f i)) by auto.
  destruct (Nat.eqb_spec p 0); [contradiction|].
  replace (f (sw p 0)) with (f p) by (f_equal).
  replace (f (sw p p)) with (f 0%nat). 2:{ f_equal. unfold sw. destruct (Nat.eqb_spec p 0); [lia|]. now rewrite Nat.eqb_refl. }
  rewrite (sumn_ext n (fun i => if (i =? p)%nat then 0 else if (i =? 0)%nat then 0 else f (sw p i))
                      (fun i => if (i =? p)%nat then 0 else if (i =? 0)%nat then 0 else f i)).
  - ring.
  - intros i I. unfold sw. destruct (Nat.eqb_spec i p), (Nat.eqb_spec i 0); auto.
Qed.

Lemma swap_inverse : forall n p A B, (p < n)%nat ->
  is_inverse n A B <-> is_inverse n (fun i => A (sw p i)) (fun i j => B i (sw p j)).
Proof.
  intros n p A B P. split; intros [H K]; split; intros i j I J.
  - unfold mulm. change (mulm n A B (sw p i) (sw p j) = idn i j). rewrite H by (now apply sw_lt).
    unfold idn. destruct (Nat.eqb_spec (sw p i) (sw p j)) as [e|e], (Nat.eqb_spec i j); auto.
    + apply (f_equal (sw p)) in e. rewrite !sw_invol in e. contradiction.
    + subst. contradiction.
  - unfold mulm. rewrite (sumn_sw n p (fun l => B i l * A l j)) by auto. now apply K.
  - specialize (H (sw p i) (sw p j) (sw_lt _ _ _ P I) (sw_lt _ _ _ P J)). unfold mulm in H.
    rewrite !sw_invol in H. unfold mulm. rewrite H. unfold idn.
    destruct (Nat.eqb_spec (sw p i) (sw p j)) as [e|e], (Nat.eqb_spec i j); auto.
    + apply (f_equal (sw p)) in e. rewrite !sw_invol in e. contradiction.
    + subst. contradiction.
  - specialize (K i j I J). unfold mulm in K. rewrite (sumn_sw n p (fun l => B i l * A l j)) in K by auto. exact K.
Qed.

(** first row at or above [n] whose entry in column 0 is not zero *)
Lemma find_pivot : forall n (A : matn), {p | (p < n)%nat /\ A p 0%nat <> 0} + {forall i, (i < n)%nat -> A i 0%nat = 0}.
Proof.
  induction n; intros A; [right; intros; lia|].
  destruct (Req_EM_T (A n 0%nat) 0) as [e|e]; [|left; exists n; auto].
  destruct (IHn A) as [[p [P Q]]|h]; [left; exists p; auto|].
  right. intros i I. destruct (Nat.eq_dec i n) as [->|]; auto. apply h. lia.
Qed.

(** Schur complement of the entry (0,0) *)
Definition schur (A : matn) : matn := fun i j => A (S i) (S j) - A (S i) 0%nat * A 0%nat (S j) / A 0%nat 0%nat.

Lemma schur_inverse_of : forall n A B, A 0%nat 0%nat <> 0 -> is_inverse (S n) A B ->
  is_inverse n (schur A) (fun i j => B (S i) (S j)).
Proof.
  intros n A B P [H K]. split; intros i j I J.
  - pose proof (H (S i) (S j) ltac:(lia) ltac:(lia)) as H1. pose proof (H 0%nat (S j) ltac:(lia) ltac:(lia)) as H0.
    unfold mulm in *. rewrite sumn_head in H1, H0. unfold schur.
    rewrite (sumn_ext _ _ (fun l => A (S i) (S l) * B (S l) (S j) - A (S i) 0%nat / A 0%nat 0%nat * (A 0%nat (S l) * B (S l) (S j)))).
    2:{ intros. field. auto. }
    rewrite sumn_minus, sumn_scal. unfold idn in *. simpl in H0, H1 |- *.
    assert (X : sumn n (fun i0 => A 0%nat (S i0) * B (S i0) (S j)) = - (A 0%nat 0%nat * B 0%nat (S j))) by lra.
    rewrite X. rewrite <- H1. field. auto.
  - pose proof (K (S i) (S j) ltac:(lia) ltac:(lia)) as H1. pose proof (K (S i) 0%nat ltac:(lia) ltac:(lia)) as H0.
    unfold mulm in *. rewrite sumn_head in H1, H0. unfold schur.
    rewrite (sumn_ext _ _ (fun l => B (S i) (S l) * A (S l) (S j) - A 0%nat (S j) / A 0%nat 0%nat * (B (S i) (S l) * A (S l) 0%nat))).
    2:{ intros. field. auto. }
    rewrite sumn_minus, sumn_scal. unfold idn in *. simpl in H0, H1 |- *.
    assert (X : sumn n (fun i0 => B (S i) (S i0) * A (S i0) 0%nat) = - (B (S i) 0%nat * A 0%nat 0%nat)) by lra.
    rewrite X. rewrite <- H1. field. auto.
Qed.

Definition block_inverse (n : nat) (A S' : matn) : matn := fun i j =>
  let a := A 0%nat 0%nat in
  match i, j with
  | O, O => / a + / a * sumn n (fun k => A 0%nat (S k) * sumn n (fun l => S' k l * A (S l) 0%nat)) * / a
  | O, S j => - / a * sumn n (fun k => A 0%nat (S k) * S' k j)
  | S i, O => - (sumn n (fun l => S' i l * A (S l) 0%nat)) * / a
  | S i, S j => S' i j
  end.

Lemma block_inverse_ok : forall n A S', A 0%nat 0%nat <> 0 -> is_inverse n (schur A) S' ->
  is_inverse (S n) A (block_inverse n A S').
Proof.
  intros n A S' P [H K].
  assert (H' : forall i j, (i < n)%nat -> (j < n)%nat ->
    sumn n (fun l => A (S i) (S l) * S' l j) = idn i j + A (S i) 0%nat / A 0%nat 0%nat * sumn n (fun l => A 0%nat (S l) * S' l j)).
  { intros i j I J. rewrite <- (H i j I J). unfold mulm, schur. rewrite <- sumn_scal, <- sumn_plus.
    apply sumn_ext; intros. field. auto. }
  assert (K' : forall i j, (i < n)%nat -> (j < n)%nat ->
    sumn n (fun l => S' i l * A (S l) (S j)) = idn i j + A 0%nat (S j) / A 0%nat 0%nat * sumn n (fun l => S' i l * A (S l) 0%nat)).
  { intros i j I J. rewrite <- (K i j I J). unfold mulm, schur. rewrite <- sumn_scal, <- sumn_plus.
    apply sumn_ext; intros. field. auto. }
  split; intros i j I J; unfold mulm; rewrite sumn_head.
  - destruct i as [|i], j as [|j]; cbn [block_inverse].
    + set (q := sumn n (fun k => A 0%nat (S k) * sumn n (fun l => S' k l * A (S l) 0%nat))).
      rewrite (sumn_ext _ _ (fun k => (A 0%nat (S k) * sumn n (fun l => S' k l * A (S l) 0%nat)) * (- / A 0%nat 0%nat))).
      2:{ intros; ring. } rewrite sumn_scal_r. fold q. unfold idn; simpl. field. auto.
    + unfold idn; simpl. field. auto.
    + set (q := sumn n (fun k => A 0%nat (S k) * sumn n (fun l => S' k l * A (S l) 0%nat))).
      rewrite (sumn_ext _ _ (fun k => (A (S i) (S k) * sumn n (fun l => S' k l * A (S l) 0%nat)) * (- / A 0%nat 0%nat))).
      2:{ intros; ring. } rewrite sumn_scal_r.
      assert (X : sumn n (fun k => A (S i) (S k) * sumn n (fun l => S' k l * A (S l) 0%nat)) =
        sumn n (fun l => (idn i l + A (S i) 0%nat / A 0%nat 0%nat * sumn n (fun k => A 0%nat (S k) * S' k l)) * A (S l) 0%nat)).
      { transitivity (sumn n (fun k => sumn n (fun l => A (S i) (S k) * S' k l * A (S l) 0%nat))).
        - apply sumn_ext; intros. rewrite <- sumn_scal. apply sumn_ext; intros; ring.
        - rewrite sumn_swap. apply sumn_ext. intros l L. rewrite <- H' by lia. now rewrite sumn_scal_r. }
      rewrite X.
      rewrite (sumn_ext _ _ (fun l => (if (l =? i)%nat then 1 else 0) * A (S l) 0%nat +
        A (S i) 0%nat / A 0%nat 0%nat * (sumn n (fun k => A 0%nat (S k) * S' k l) * A (S l) 0%nat))).
      2:{ intros l L. unfold idn. rewrite (Nat.eqb_sym i l). ring. }
      rewrite sumn_plus, sumn_scal. rewrite (sumn_delta n i (fun l => A (S l) 0%nat)) by lia.
      assert (Y : sumn n (fun k => A 0%nat (S k) * sumn n (fun l => S' k l * A (S l) 0%nat)) =
        sumn n (fun l => sumn n (fun k => A 0%nat (S k) * S' k l) * A (S l) 0%nat)).
      { transitivity (sumn n (fun k => sumn n (fun l => A 0%nat (S k) * S' k l * A (S l) 0%nat))).
        - apply sumn_ext; intros. rewrite <- sumn_scal. apply sumn_ext; intros; ring.
        - rewrite sumn_swap. apply sumn_ext. intros l L. now rewrite sumn_scal_r. }
      unfold q; rewrite Y. unfold idn; simpl. field. auto.
    + rewrite H' by lia. unfold idn; simpl. field. auto.
  - destruct i as [|i], j as [|j]; cbn [block_inverse].
    + set (q := sumn n (fun k => A 0%nat (S k) * sumn n (fun l => S' k l * A (S l) 0%nat))).
      rewrite (sumn_ext _ _ (fun l => (- / A 0%nat 0%nat) * (sumn n (fun k => A 0%nat (S k) * S' k l) * A (S l) 0%nat))).
      2:{ intros; ring. } rewrite sumn_scal. unfold q.
      assert (Y : sumn n (fun k => A 0%nat (S k) * sumn n (fun l => S' k l * A (S l) 0%nat)) =
        sumn n (fun l => sumn n (fun k => A 0%nat (S k) * S' k l) * A (S l) 0%nat)).
      { transitivity (sumn n (fun k => sumn n (fun l => A 0%nat (S k) * S' k l * A (S l) 0%nat))).
        - apply sumn_ext; intros. rewrite <- sumn_scal. apply sumn_ext; intros; ring.
        - rewrite sumn_swap. apply sumn_ext. intros l L. now rewrite sumn_scal_r. }
      rewrite Y. unfold idn; simpl. field. auto.
    + set (q := sumn n (fun k => A 0%nat (S k) * sumn n (fun l => S' k l * A (S l) 0%nat))).
      rewrite (sumn_ext _ _ (fun l => (- / A 0%nat 0%nat) * (sumn n (fun k => A 0%nat (S k) * S' k l) * A (S l) (S j)))).
      2:{ intros; ring. } rewrite sumn_scal.
      assert (X : sumn n (fun l => sumn n (fun k => A 0%nat (S k) * S' k l) * A (S l) (S j)) =
        sumn n (fun k => A 0%nat (S k) * (idn k j + A 0%nat (S j) / A 0%nat 0%nat * sumn n (fun l => S' k l * A (S l) 0%nat)))).
      { transitivity (sumn n (fun l => sumn n (fun k => A 0%nat (S k) * S' k l * A (S l) (S j)))).
        - apply sumn_ext; intros. now rewrite <- sumn_scal_r.
        - rewrite sumn_swap. apply sumn_ext. intros k Kk. rewrite <- K' by lia. rewrite <- sumn_scal.
          apply sumn_ext; intros; ring. }
      rewrite X.
      rewrite (sumn_ext _ _ (fun k => (if (k =? j)%nat then 1 else 0) * A 0%nat (S k) +
        A 0%nat (S j) / A 0%nat 0%nat * (A 0%nat (S k) * sumn n (fun l => S' k l * A (S l) 0%nat)))).
      2:{ intros l L. unfold idn. ring. }
      rewrite sumn_plus, sumn_scal. rewrite (sumn_delta n j (fun l => A 0%nat (S l))) by lia.
      unfold q, idn; simpl. field. auto.
    + unfold idn; simpl. field. auto.
    + rewrite K' by lia. unfold idn; simpl. field. auto.
Qed.

(** every square matrix has an inverse or provably has none *)
Lemma inverse_dec : forall n A, {B | is_inverse n A B} + {~ invertible n A}.
Proof.
  induction n; intros A.
  - left. exists idn. split; intros i j I; lia.
  - destruct (find_pivot (S n) A) as [[p [P Q]]|Z].
    + set (A' := fun i => A (sw p i)).
      assert (Q' : A' 0%nat 0%nat <> 0) by exact Q.
      destruct (IHn (schur A')) as [[S' HS]|N].
      * left. exists (fun i j => block_inverse n A' S' i (sw p j)).
        pose proof (block_inverse_ok n A' S' Q' HS) as B.
        apply (proj2 (swap_inverse (S n) p A _ P)). eapply inverse_ext; [| |exact B].
        -- apply meq_refl.
        -- intros i j I J. now rewrite sw_invol.
      * right. intros [B HB]. apply N.
        apply (proj1 (swap_inverse (S n) p A B P)) in HB. eexists. eapply schur_inverse_of; eauto.
    + right. intros [B [_ K]]. specialize (K 0%nat 0%nat ltac:(lia) ltac:(lia)).
      unfold mulm in K. rewrite sumn_0 in K; [unfold idn in K; simpl in K; lra|].
      intros i I. rewrite Z by auto. ring.
Qed.
