(** Theory of the determinant as modelled in MConics. *)
From Coq Require Import Reals Lra Lia List Arith Bool.
From Verif Require Import RVec LNum SpecConics MConics LConics.
Open Scope R_scope.

Lemma minor_ext : forall n A B j, meq (S n) (S n) A B -> (j <= n)%nat -> meq n n (minor A j) (minor B j).
Proof. intros n A B j H J i l I L. unfold minor. apply H; [lia|]. destruct (l <? j)%nat; lia. Qed.
Lemma det_ext : forall n A B, meq n n A B -> det n A = det n B.
Proof.
  induction n; intros A B H; auto. cbn [det]. apply sumn_ext. intros j J.
  rewrite (H 0%nat j) by lia. rewrite (IHn (minor A j) (minor B j)); auto. apply minor_ext; auto. lia.
Qed.

Definition setcol (A : matn) (j : nat) (v : vecn) : matn := fun i l => if (l =? j)%nat then v i else A i l.
Definition del (l j : nat) : nat := if (j <? l)%nat then j else (j - 1)%nat.

Lemma minor_setcol_same : forall n A j v, meq n n (minor (setcol A j v) j) (minor A j).
Proof.
  intros n A j v i l I L. unfold minor, setcol.
  destruct (Nat.ltb_spec l j); match goal with |- context[(?a =? j)%nat] => destruct (Nat.eqb_spec a j) end; auto; lia.
Qed.
Lemma minor_setcol : forall n A j v l, l <> j -> (l <= n)%nat -> (j <= n)%nat ->
  meq n n (minor (setcol A j v) l) (setcol (minor A l) (del l j) (fun i => v (S i))).
Proof.
  intros n A j v l N Ll J i q I Q. unfold minor, setcol, del.
  destruct (Nat.ltb_spec q l), (Nat.ltb_spec j l);
    repeat match goal with |- context[(?a =? ?b)%nat] => destruct (Nat.eqb_spec a b) end; auto; lia.
Qed.

Lemma det_setcol : forall n A j v, (j <= n)%nat -> det (S n) (setcol A j v) =
  sumn (S n) (fun l => if (l =? j)%nat then (-1) ^ j * v 0%nat * det n (minor A j)
     else (-1) ^ l * A 0%nat l * det n (setcol (minor A l) (del l j) (fun i => v (S i)))).
Proof.
  intros n A j v J. cbn [det]. apply sumn_ext. intros l L. destruct (Nat.eqb_spec l j) as [->|h].
  - rewrite (det_ext n _ _ (minor_setcol_same n A j v)). unfold setcol at 1. now rewrite Nat.eqb_refl.
  - rewrite (det_ext n _ _ (minor_setcol n A j v l h ltac:(lia) J)). unfold setcol at 1. destruct (Nat.eqb_spec l j); [lia|auto].
Qed.

Lemma det_linear : forall n A j a x y, (j < n)%nat ->
  det n (setcol A j (vplus (vtimes a x) y)) = a * det n (setcol A j x) + det n (setcol A j y).
Proof.
  induction n; intros A j a x y J; [lia|]. rewrite !det_setcol by lia. rewrite <- sumn_scal, <- sumn_plus.
  apply sumn_ext. intros l L. destruct (Nat.eqb_spec l j) as [->|h].
  - unfold vplus, vtimes. ring.
  - change (fun i => vplus (vtimes a x) y (S i)) with (vplus (vtimes a (fun i => x (S i))) (fun i => y (S i))).
    rewrite IHn; [ring|]. unfold del. destruct (Nat.ltb_spec j l); lia.
Qed.
Lemma det_plus : forall n A j x y, (j < n)%nat ->
  det n (setcol A j (vplus x y)) = det n (setcol A j x) + det n (setcol A j y).
Proof.
  intros n A j x y J. pose proof (det_linear n A j 1 x y J) as H. rewrite Rmult_1_l in H. rewrite <- H.
  apply det_ext. intros i l _ _. unfold setcol. destruct (l =? j)%nat; auto. unfold vplus, vtimes. ring.
Qed.

(** two equal adjacent columns *)
Lemma det_adjacent : forall n A p, (S p < n)%nat -> (forall i, (i < n)%nat -> A i p = A i (S p)) -> det n A = 0.
Proof.
  induction n; intros A p P E; [lia|]. cbn [det].
  change (sumn (S n) (fun j => (-1) ^ j * A 0%nat j * det n (minor A j)) = 0).
  assert (Z : forall l, (l < S n)%nat -> l <> p -> l <> S p -> det n (minor A l) = 0).
  { intros l L N1 N2. apply (IHn (minor A l) (del l p)).
    - unfold del. destruct (Nat.ltb_spec p l); lia.
    - intros i I. unfold minor, del. destruct (Nat.ltb_spec p l).
      + destruct (Nat.ltb_spec p l), (Nat.ltb_spec (S p) l); try lia. apply E. lia.
      + destruct (Nat.ltb_spec (p - 1) l), (Nat.ltb_spec (S (p - 1)) l); try lia.
        replace (S (p - 1)) with p by lia. apply E. lia. }
  rewrite (sumn_remove (S n) p) by lia.
  rewrite (sumn_remove (S n) (S p) (fun i => if (i =? p)%nat then 0 else (-1) ^ i * A 0%nat i * det n (minor A i))) by lia.
  destruct (Nat.eqb_spec (S p) p); [lia|].
  rewrite (sumn_0 (S n)).
  2:{ intros l L. destruct (Nat.eqb_spec l (S p)); auto. destruct (Nat.eqb_spec l p); auto. rewrite Z by lia. ring. }
  rewrite (det_ext n (minor A (S p)) (minor A p)).
  - rewrite <- (E 0%nat) by lia. simpl. ring.
  - intros i l I L. unfold minor. destruct (Nat.ltb_spec l (S p)), (Nat.ltb_spec l p); try lia; auto.
    replace l with p by lia. apply E. lia.
Qed.

(** exchanging adjacent columns *)
Definition swap_adj (p : nat) (A : matn) : matn := fun i l =>
  if (l =? p)%nat then A i (S p) else if (l =? S p)%nat then A i p else A i l.
Lemma det_swap_adj : forall n A p, (S p < n)%nat -> det n (swap_adj p A) = - det n A.
Proof.
  intros n A p P. set (x := fun i => A i p). set (y := fun i => A i (S p)).
  set (M u v := setcol (setcol A p u) (S p) v).
  assert (AD : forall u, det n (M u u) = 0).
  { intros u. apply (det_adjacent n (M u u) p P). intros i I. unfold M, setcol.
    rewrite Nat.eqb_refl. destruct (Nat.eqb_spec p (S p)); [lia|]. now rewrite Nat.eqb_refl. }
  assert (L2 : forall u v w, det n (M u (vplus v w)) = det n (M u v) + det n (M u w)) by (intros; apply det_plus; lia).
  assert (L1 : forall u v w, det n (M (vplus u v) w) = det n (M u w) + det n (M v w)).
  { intros u v w. assert (C : forall z, det n (M z w) = det n (setcol (setcol A (S p) w) p z)).
    { intros z. apply det_ext. intros i l _ _. unfold M, setcol.
      destruct (Nat.eqb_spec l (S p)), (Nat.eqb_spec l p); auto; lia. }
    rewrite !C. apply det_plus. lia. }
  pose proof (AD (vplus x y)) as H. rewrite L1, !L2, !AD in H.
  rewrite (det_ext n (swap_adj p A) (M y x)); [rewrite (det_ext n A (M x y)); [lra|]|].
  - intros i l _ _. unfold M, setcol, x, y. destruct (Nat.eqb_spec l (S p)); [now subst|].
    destruct (Nat.eqb_spec l p); now subst.
  - intros i l _ _. unfold swap_adj, M, setcol, x, y.
    destruct (Nat.eqb_spec l (S p)), (Nat.eqb_spec l p); auto; lia.
Qed.

(** any two equal columns *)
Lemma det_equal_cols : forall n d A p, (p + S d < n)%nat -> (forall i, (i < n)%nat -> A i p = A i (p + S d)%nat) -> det n A = 0.
Proof.
  intros n. induction d; intros A p P E.
  - apply (det_adjacent n A p); [lia|]. intros i I. rewrite E by auto. f_equal. lia.
  - pose proof (det_swap_adj n A (p + S d) ltac:(lia)) as H.
    rewrite (IHd (swap_adj (p + S d) A) p) in H; [lra|lia|].
    intros i I. unfold swap_adj. destruct (Nat.eqb_spec p (p + S d)); [lia|]. destruct (Nat.eqb_spec p (S (p + S d))); [lia|].
    rewrite Nat.eqb_refl. rewrite E by auto. f_equal. lia.
Qed.
(** adding a multiple of column 0 to column j *)
Lemma det_add_col : forall n A j a, (0 < j)%nat -> (j < n)%nat ->
  det n (setcol A j (vplus (vtimes a (fun i => A i 0%nat)) (fun i => A i j))) = det n A.
Proof.
  intros n A j a J0 J. rewrite det_linear by auto.
  rewrite (det_equal_cols n (j - 1) (setcol A j (fun i => A i 0%nat)) 0).
  - rewrite (det_ext n (setcol A j (fun i => A i j)) A); [ring|].
    intros i l _ _. unfold setcol. destruct (Nat.eqb_spec l j); now subst.
  - lia.
  - intros i I. unfold setcol. destruct (Nat.eqb_spec 0 j); [lia|].
    destruct (Nat.eqb_spec (0 + S (j - 1)) j); [auto|lia].
Qed.

(** clearing the first row *)
Definition cleared (A : matn) (k : nat) : matn := fun i j =>
  if (0 <? j)%nat && (j <=? k)%nat then A i j - A i 0%nat * A 0%nat j / A 0%nat 0%nat else A i j.
Lemma det_cleared : forall n A k, A 0%nat 0%nat <> 0 -> (k < n)%nat -> det n (cleared A k) = det n A.
Proof.
  intros n A k P. induction k; intros K.
  - apply det_ext. intros i j _ _. unfold cleared. destruct (Nat.ltb_spec 0 j), (Nat.leb_spec j 0); auto; lia.
  - rewrite <- IHk by lia. rewrite <- (det_add_col n (cleared A k) (S k) (- A 0%nat (S k) / A 0%nat 0%nat)) by lia.
    apply det_ext. intros i j _ _. unfold setcol, vplus, vtimes, cleared.
    destruct (Nat.eqb_spec j (S k)) as [->|h].
    + destruct (Nat.ltb_spec 0 (S k)), (Nat.leb_spec (S k) (S k)), (Nat.leb_spec (S k) k), (Nat.ltb_spec 0 0); try lia. simpl. field. auto.
    + destruct (Nat.ltb_spec 0 j), (Nat.leb_spec j (S k)), (Nat.leb_spec j k); auto; lia.
Qed.
Lemma det_schur : forall n A, A 0%nat 0%nat <> 0 -> det (S n) A = A 0%nat 0%nat * det n (schur A).
Proof.
  intros n A P. rewrite <- (det_cleared (S n) A n P) by lia. cbn [det].
  change (sumn (S n) (fun j => (-1) ^ j * cleared A n 0%nat j * det n (minor (cleared A n) j)) = A 0%nat 0%nat * det n (schur A)).
  rewrite sumn_head. rewrite sumn_0.
  - rewrite (det_ext n (minor (cleared A n) 0) (schur A)).
    + unfold cleared; simpl. ring.
    + intros i j I J. unfold minor, cleared, schur. destruct (Nat.ltb_spec j 0); [lia|].
      destruct (Nat.ltb_spec 0 (S j)), (Nat.leb_spec (S j) n); try lia. reflexivity.
  - intros j J. unfold cleared at 1. destruct (Nat.ltb_spec 0 (S j)), (Nat.leb_spec (S j) n); try lia. simpl. field. auto.
Qed.

Lemma pd_diag : forall n A, positive_definite (S n) A -> 0 < A 0%nat 0%nat.
Proof.
  intros n A H. specialize (H (fun i => idn i 0%nat)).
  pose proof (bil_unit (S n) A 0 0 ltac:(lia) ltac:(lia)) as E. unfold bil in E. cbv beta in H, E. rewrite E in H. apply H.
  intros X. specialize (X 0%nat ltac:(lia)). unfold idn in X; simpl in X. lra.
Qed.
Lemma pd_schur : forall n A, positive_definite (S n) A -> positive_definite n (schur A).
Proof.
  intros n A H y NZ. pose proof (pd_diag n A H) as P.
  set (b := sumn n (fun j => A 0%nat (S j) * y j)). set (c := sumn n (fun i => A (S i) 0%nat * y i)).
  set (q := sumn n (fun i => sumn n (fun j => A (S i) (S j) * y i * y j))).
  set (x := fun i => match i with O => - b / A 0%nat 0%nat | S k => y k end).
  assert (NX : ~ veq (S n) x (fun _ => 0)).
  { intros X. apply NZ. intros i I. apply (X (S i)). lia. }
  specialize (H x NX).
  assert (E : sumn (S n) (fun i => sumn (S n) (fun j => A i j * x i * x j)) = q - b * c / A 0%nat 0%nat).
  { rewrite sumn_head. rewrite sumn_head.
    rewrite (sumn_ext n (fun i => A 0%nat (S i) * x 0%nat * x (S i)) (fun i => x 0%nat * (A 0%nat (S i) * y i))) by (intros; simpl; ring).
    rewrite sumn_scal. fold b.
    rewrite (sumn_ext n (fun i => sumn (S n) (fun j => A (S i) j * x (S i) * x j))
      (fun i => x 0%nat * (A (S i) 0%nat * y i) + sumn n (fun j => A (S i) (S j) * y i * y j))).
    2:{ intros i I. rewrite sumn_head. simpl. f_equal. ring. }
    rewrite sumn_plus, sumn_scal. fold c q. simpl. field. lra. }
  rewrite E in H.
  assert (F : sumn n (fun i => sumn n (fun j => schur A i j * y i * y j)) = q - b * c / A 0%nat 0%nat).
  { unfold schur.
    rewrite (sumn_ext n _ (fun i => sumn n (fun j => A (S i) (S j) * y i * y j) - (b / A 0%nat 0%nat) * (A (S i) 0%nat * y i))).
    - rewrite sumn_minus, sumn_scal. fold c q. field. lra.
    - intros i I. unfold b.
      replace (sumn n (fun j => A 0%nat (S j) * y j) / A 0%nat 0%nat * (A (S i) 0%nat * y i)) with
        (sumn n (fun j => A 0%nat (S j) * y j) * (A (S i) 0%nat * y i / A 0%nat 0%nat)) by (field; lra).
      rewrite <- sumn_scal_r, <- sumn_minus. apply sumn_ext. intros. field. lra. }
  rewrite F. exact H.
Qed.
Lemma pd_det : forall n A, positive_definite n A -> 0 < det n A.
Proof.
  induction n; intros A H; [simpl; lra|]. pose proof (pd_diag n A H) as P.
  rewrite det_schur by lra. pose proof (IHn _ (pd_schur n A H)). nra.
Qed.

Fixpoint prodn (n : nat) (f : nat -> R) : R := match n with O => 1 | S k => prodn k f * f k end.
Lemma prodn_head : forall n f, prodn (S n) f = f 0%nat * prodn n (fun i => f (S i)).
Proof. induction n; intros f; [simpl; lra|]. change (prodn (S (S n)) f) with (prodn (S n) f * f (S n)). rewrite IHn. simpl. lra. Qed.
Lemma det_diag : forall n A, (forall i j, (i < n)%nat -> (j < n)%nat -> i <> j -> A i j = 0) ->
  det n A = prodn n (fun i => A i i).
Proof.
  induction n; intros A H; auto. rewrite prodn_head. cbn [det].
  change (sumn (S n) (fun j => (-1) ^ j * A 0%nat j * det n (minor A j)) = A 0%nat 0%nat * prodn n (fun i => A (S i) (S i))).
  rewrite sumn_head, sumn_0.
  - rewrite (IHn (minor A 0)).
    + change (prodn n (fun i => minor A 0 i i)) with (prodn n (fun i => A (S i) (S i))). cbn [pow]. ring.
    + intros i j I J N. unfold minor; simpl. apply H; lia.
  - intros j J. rewrite (H 0%nat (S j)) by lia. ring.
Qed.
