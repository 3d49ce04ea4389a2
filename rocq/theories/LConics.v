(** Lemmas on quadrics. *)
From Coq Require Import Reals Lra Lia List Arith Bool.
From Verif Require Import RVec Trig LNum SpecConics MConics.
Import ListNotations.
Open Scope R_scope.

Definition inv_ref : inv_fn := fun n A => match inverse_dec n A with inleft (exist _ B _) => Some B | inright _ => None end.
Lemma inv_ref_ok : numpy_inv inv_ref.
Proof. intros n A. unfold inv_ref. destruct (inverse_dec n A) as [[B H]|H]; auto. Qed.

Lemma augment_lt : forall n p i, (i < n)%nat -> augment n p i = p i.
Proof. intros. unfold augment. destruct (Nat.ltb_spec i n); auto; lia. Qed.
Lemma augment_n : forall n p, augment n p n = 1.
Proof. intros. unfold augment. now rewrite Nat.ltb_irrefl. Qed.

(** bilinear form *)
Definition bil (k : nat) (C : matn) (x y : vecn) : R := sumn k (fun i => sumn k (fun j => C i j * x i * y j)).
Lemma solve_bil : forall k C v, solve k C v = bil k C v v.
Proof.
  intros. unfold solve, dotn, vmul_mat, bil. rewrite sumn_swap. apply sumn_ext; intros j J.
  rewrite <- sumn_scal_r. apply sumn_ext; intros; ring.
Qed.
Lemma bil_ext : forall k C C' x x' y y', meq k k C C' -> veq k x x' -> veq k y y' -> bil k C x y = bil k C' x' y'.
Proof.
  intros k C C' x x' y y' H X Y. apply sumn_ext; intros i I. apply sumn_ext; intros j J. rewrite H, X, Y; auto.
Qed.
Lemma bil_plus_l : forall k C x x' y, bil k C (vplus x x') y = bil k C x y + bil k C x' y.
Proof. intros. unfold bil. rewrite <- sumn_plus. apply sumn_ext; intros. rewrite <- sumn_plus. apply sumn_ext; intros. unfold vplus. ring. Qed.
Lemma bil_plus_r : forall k C x y y', bil k C x (vplus y y') = bil k C x y + bil k C x y'.
Proof. intros. unfold bil. rewrite <- sumn_plus. apply sumn_ext; intros. rewrite <- sumn_plus. apply sumn_ext; intros. unfold vplus. ring. Qed.
Lemma bil_scal_l : forall k C c x y, bil k C (vtimes c x) y = c * bil k C x y.
Proof. intros. unfold bil. rewrite <- sumn_scal. apply sumn_ext; intros. rewrite <- sumn_scal. apply sumn_ext; intros. unfold vtimes. ring. Qed.
Lemma bil_scal_r : forall k C c x y, bil k C x (vtimes c y) = c * bil k C x y.
Proof. intros. unfold bil. rewrite <- sumn_scal. apply sumn_ext; intros. rewrite <- sumn_scal. apply sumn_ext; intros. unfold vtimes. ring. Qed.
Lemma bil_sym : forall k C x y, symmetric k C -> bil k C x y = bil k C y x.
Proof.
  intros k C x y H. unfold bil. rewrite sumn_swap. apply sumn_ext; intros i I. apply sumn_ext; intros j J.
  rewrite (H j i) by auto. unfold trn. ring.
Qed.
Lemma bil_mulv : forall k C x y, bil k C x y = dotn k x (mulv k C y).
Proof.
  intros. unfold bil, dotn, mulv. apply sumn_ext; intros. rewrite <- sumn_scal. apply sumn_ext; intros; ring.
Qed.

Lemma bil_value : forall n C p, bil (S n) C (augment n p) (augment n p) = value n C p.
Proof.
  intros n C p. unfold bil, value. cbn [sumn]. rewrite augment_n.
  rewrite (sumn_ext n (fun i => sumn n (fun j => C i j * augment n p i * augment n p j) + C i n * augment n p i * 1)
                      (fun i => sumn n (fun j => C i j * p i * p j) + C i n * p i)).
  2:{ intros i I. rewrite augment_lt by auto. f_equal; [|ring]. apply sumn_ext; intros j J. now rewrite augment_lt. }
  rewrite sumn_plus.
  rewrite (sumn_ext n (fun j => C n j * 1 * augment n p j) (fun j => C n j * p j)).
  2:{ intros j J. rewrite augment_lt by auto. ring. }
  rewrite (sumn_ext n (fun i => (C i n + C n i) * p i) (fun i => C i n * p i + C n i * p i)) by (intros; ring).
  rewrite sumn_plus. ring.
Qed.
Lemma solve_value : forall n C p, solve (S n) C (augment n p) = value n C p.
Proof. intros. rewrite solve_bil. apply bil_value. Qed.
Lemma value_ext : forall n C C' x x', meq (S n) (S n) C C' -> veq n x x' -> value n C x = value n C' x'.
Proof.
  intros n C C' x x' H X. rewrite <- !bil_value. apply bil_ext; auto; intros i I; unfold augment;
    destruct (Nat.ltb_spec i n); auto.
Qed.

(** transforming pulls the form back *)
Lemma bil_transform : forall k m C T x y,
  bil m (mulm k (mulm k (trn T) C) T) x y = bil k C (mulv m T x) (mulv m T y).
Proof.
  intros k m C T x y. rewrite !bil_mulv.
  transitivity (dotn m x (mulv k (trn T) (mulv k C (mulv m T y)))).
  - apply dotn_ext; [intros i _; reflexivity|]. intros i I.
    rewrite <- !(mulv_assoc _ _ _ _ _ i). reflexivity.
  - rewrite dot_mulv. apply dotn_ext; [|intros i _; reflexivity]. intros i I.
    unfold vmul_mat, mulv, trn. apply sumn_ext; intros; ring.
Qed.
Lemma solve_transform : forall n m C T y, solve m (transform n C T) y = solve (S n) C (mulv m T y).
Proof. intros. rewrite !solve_bil. apply bil_transform. Qed.

Definition translation (n : nat) (v : vecn) : matn := fun i j => if (i <? n)%nat && (j =? n)%nat then - v i else idn i j.
Lemma translation_point : forall n v p, veq (S n) (mulv (S n) (translation n v) (augment n p)) (augment n (vminus p v)).
Proof.
  intros n v p i I. unfold mulv. cbn [sumn]. rewrite augment_n.
  destruct (Nat.ltb_spec i n) as [h|h].
  - rewrite augment_lt by auto. unfold translation at 2. rewrite Nat.eqb_refl. destruct (Nat.ltb_spec i n); [|lia].
    rewrite (sumn_ext n _ (fun j => (if (j =? i)%nat then 1 else 0) * p j)).
    + rewrite sumn_delta by auto. simpl. unfold vminus. ring.
    + intros j J. unfold translation. destruct (Nat.eqb_spec j n); [lia|]. rewrite andb_false_r.
      unfold idn. rewrite (Nat.eqb_sym i j), augment_lt; auto.
  - replace i with n by lia. rewrite augment_n. unfold translation at 2. rewrite Nat.ltb_irrefl. simpl.
    unfold idn. rewrite Nat.eqb_refl. rewrite sumn_0; [ring|]. intros j J. unfold translation. rewrite Nat.ltb_irrefl.
    simpl. unfold idn. destruct (Nat.eqb_spec n j); [lia|ring].
Qed.
Lemma translate_value : forall n C v p, value n (translate n C v) p = value n C (vminus p v).
Proof.
  intros. rewrite <- !solve_value. unfold translate. fold (translation n v). rewrite solve_transform, !solve_bil.
  apply bil_ext; [apply meq_refl| |]; apply translation_point.
Qed.

(** entries of the translated conic *)
Lemma transform_entries : forall n C T i j,
  transform n C T i j = bil (S n) C (fun k => T k i) (fun k => T k j).
Proof.
  intros. unfold transform, solve_mat, mulm, bil, trn.
  rewrite (sumn_ext _ (fun i0 => sumn (S n) (fun j0 => C i0 j0 * T i0 i * T j0 j))
    (fun i0 => sumn (S n) (fun j0 => T i0 i * C i0 j0 * T j0 j))).
  2:{ intros; apply sumn_ext; intros; ring. }
  rewrite sumn_swap. apply sumn_ext; intros. now rewrite sumn_scal_r.
Qed.
Lemma translate_entries : forall n C v i j,
  translate n C v i j = bil (S n) C (fun k => translation n v k i) (fun k => translation n v k j).
Proof. intros. unfold translate. fold (translation n v). apply transform_entries. Qed.
Lemma translation_col : forall n v j, (j < n)%nat -> veq (S n) (fun k => translation n v k j) (fun k => idn k j).
Proof.
  intros n v j J k K. unfold translation. destruct (Nat.eqb_spec j n); [lia|]. now rewrite andb_false_r.
Qed.
Lemma bil_unit : forall k C i j, (i < k)%nat -> (j < k)%nat -> bil k C (fun l => idn l i) (fun l => idn l j) = C i j.
Proof.
  intros k C i j I J. unfold bil, idn.
  rewrite (sumn_ext k _ (fun l => (if (l =? i)%nat then 1 else 0) * C l j)).
  - now apply sumn_delta with (f := fun l => C l j).
  - intros l L. rewrite (sumn_ext k _ (fun q => (if (q =? j)%nat then 1 else 0) * (C l q * (if (l =? i)%nat then 1 else 0)))).
    + rewrite sumn_delta by auto. ring.
    + intros; ring.
Qed.
Lemma translate_quadratic : forall n C v, meq n n (translate n C v) C.
Proof.
  intros n C v i j I J. rewrite translate_entries.
  rewrite (bil_ext (S n) C C _ (fun k => idn k i) _ (fun k => idn k j)); [|apply meq_refl| |]; try (apply translation_col; auto).
  apply bil_unit; lia.
Qed.
Lemma translate_linear : forall n C v i, (i < n)%nat ->
  translate n C v i n = C i n - sumn n (fun j => C i j * v j).
Proof.
  intros n C v i I. rewrite translate_entries.
  rewrite (bil_ext (S n) C C _ (fun k => idn k i) _ (fun k => translation n v k n)); [|apply meq_refl| |].
  2:{ apply translation_col; auto. } 2:{ intros k _; reflexivity. }
  rewrite bil_mulv. unfold dotn, idn.
  rewrite (sumn_delta (S n) i (fun l => mulv (S n) C (fun k => translation n v k n) l)) by lia.
  unfold mulv. cbn [sumn]. unfold translation at 2. rewrite Nat.ltb_irrefl. cbn [andb].
  unfold idn; rewrite Nat.eqb_refl.
  rewrite (sumn_ext n _ (fun j => - (C i j * v j))).
  - rewrite sumn_opp. ring.
  - intros j J. unfold translation. rewrite Nat.eqb_refl. destruct (Nat.ltb_spec j n); [|lia]. simpl. ring.
Qed.

(** value along a line and around a point *)
Lemma value_shift : forall n C c x, symmetric (S n) C ->
  value n C (vplus c x) = value n C c + 2 * sumn n (fun i => x i * (sumn n (fun j => C i j * c j) + C i n))
    + sumn n (fun i => sumn n (fun j => C i j * x i * x j)).
Proof.
  intros n C c x SY. unfold value.
  assert (S0 : forall i, (i < n)%nat -> C n i = C i n) by (intros; rewrite (SY n i) by lia; reflexivity).
  rewrite (sumn_ext n (fun i => (C i n + C n i) * vplus c x i) (fun i => (C i n + C n i) * c i + 2 * (x i * C i n))).
  2:{ intros i I. rewrite S0 by auto. unfold vplus. ring. }
  rewrite sumn_plus, sumn_scal.
  rewrite (sumn_ext n (fun i => x i * (sumn n (fun j => C i j * c j) + C i n)) (fun i => x i * sumn n (fun j => C i j * c j) + x i * C i n)) by (intros; ring).
  rewrite sumn_plus.
  assert (Q : sumn n (fun i => sumn n (fun j => C i j * vplus c x i * vplus c x j)) =
     sumn n (fun i => sumn n (fun j => C i j * c i * c j)) + 2 * sumn n (fun i => x i * sumn n (fun j => C i j * c j))
     + sumn n (fun i => sumn n (fun j => C i j * x i * x j))).
  { assert (X : sumn n (fun i => x i * sumn n (fun j => C i j * c j)) = bil n C x c).
    { rewrite bil_mulv. reflexivity. }
    rewrite X. change (bil n C (vplus c x) (vplus c x) = bil n C c c + 2 * bil n C x c + bil n C x x).
    rewrite bil_plus_l, !bil_plus_r. rewrite (bil_sym n C c x); [ring|].
    intros i j I J. apply SY; lia. }
  rewrite Q. ring.
Qed.

Lemma mulv_plus : forall n B x y i, mulv n B (vplus x y) i = mulv n B x i + mulv n B y i.
Proof. intros. unfold mulv. rewrite <- sumn_plus. apply sumn_ext; intros. unfold vplus. ring. Qed.
Lemma mulv_times : forall n B k x i, mulv n B (vtimes k x) i = k * mulv n B x i.
Proof. intros. unfold mulv. rewrite <- sumn_scal. apply sumn_ext; intros. unfold vtimes. ring. Qed.
