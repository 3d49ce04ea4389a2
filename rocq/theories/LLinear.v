(** Normal equations, any number of observations and coefficients. *)
From Coq Require Import Reals Lra Lia List Arith Bool Psatz.
From Verif Require Import RVec Trig LNum SpecConics MConics MLinear.
Import ListNotations.
Open Scope R_scope.

Definition nonzero (n : nat) (x : vecn) : Prop := exists i, (i < n)%nat /\ x i <> 0.
Lemma nonzero_dec : forall n x, nonzero n x \/ veq n x (fun _ => 0).
Proof.
  induction n; intros x; [right; intros i I; lia|].
  destruct (IHn x) as [(i & I & N)|Z]; [left; exists i; split; auto; lia|].
  destruct (Req_EM_T (x n) 0) as [e|e]; [|left; exists n; auto].
  right. intros i I. destruct (Nat.eq_dec i n) as [->|]; auto. apply Z. lia.
Qed.
Lemma mulv_sw : forall n A x p i, mulv n (fun i => A (sw p i)) x i = mulv n A x (sw p i).
Proof. reflexivity. Qed.
(** a matrix without an inverse annihilates a vector *)
Lemma singular_kernel : forall n A, ~ invertible n A -> exists x, nonzero n x /\ veq n (mulv n A x) (fun _ => 0).
Proof.
  induction n; intros A NI.
  - exfalso. apply NI. exists idn. split; intros i j I; lia.
  - destruct (find_pivot (S n) A) as [[p [P Q]]|Z].
    + set (A' := fun i => A (sw p i)). assert (Q' : A' 0%nat 0%nat <> 0) by exact Q.
      destruct (IHn (schur A')) as (y & (k & Kn & Ky) & E).
      { intros [S' HS]. apply NI. pose proof (block_inverse_ok n A' S' Q' HS) as H.
        exists (fun i j => block_inverse n A' S' i (sw p j)). apply (swap_inverse (S n) p _ _ P).
        eapply inverse_ext; [apply meq_refl| |exact H]. intros i j I J. now rewrite sw_invol. }
      set (x := fun i => match i with O => - sumn n (fun l => A' 0%nat (S l) * y l) / A' 0%nat 0%nat | S i => y i end).
      exists x. split; [exists (S k); split; [lia|exact Ky]|].
      assert (EA : veq (S n) (mulv (S n) A' x) (fun _ => 0)).
      { intros i I. unfold mulv. rewrite sumn_head. cbn [x]. destruct i as [|i].
        - unfold x. field. auto.
        - specialize (E i ltac:(lia)). unfold mulv, schur in E.
          rewrite (sumn_ext _ _ (fun l => A' (S i) (S l) * y l - A' (S i) 0%nat / A' 0%nat 0%nat * (A' 0%nat (S l) * y l))) in E.
          2:{ intros. field. auto. }
          rewrite sumn_minus, sumn_scal in E. unfold x.
          match goal with |- ?a * (- ?s / ?b) + ?c = 0 => replace (a * (- s / b) + c) with (c - a / b * s) by (field; auto) end. exact E. }
      intros i I. specialize (EA (sw p i) (sw_lt _ _ _ P I)). unfold A' in EA. rewrite mulv_sw, sw_invol in EA. exact EA.
    + exists (fun l => idn l 0%nat). split; [exists 0%nat; split; [lia|unfold idn; simpl; lra]|].
      intros i I. unfold mulv. apply sumn_0. intros j J. unfold idn. destruct j; simpl; [rewrite Z by auto; ring|ring].
Qed.
Lemma invertible_iff : forall n A, invertible n A <-> (forall x, veq n (mulv n A x) (fun _ => 0) -> veq n x (fun _ => 0)).
Proof.
  intros n A. split.
  - intros H x. now apply invertible_kernel.
  - intros H. destruct (inverse_dec n A) as [[B HB]|N]; [exists B; auto|].
    destruct (singular_kernel n A N) as (x & (i & I & NZ) & K). exfalso. apply NZ. now apply (H x K i).
Qed.

Section Normal.
Variables (n k : nat) (C : matn) (Z : vecn).
Let G := matrix_squared n C.
Definition gap (m : vecn) : vecn := fun i => Z i - mulv k C m i.

Lemma gram_mulv : forall x j, mulv k G x j = sumn n (fun i => C i j * mulv k C x i).
Proof.
  intros x j. unfold mulv, G, matrix_squared, mulm, trn.
  rewrite (sumn_ext _ _ (fun l => sumn n (fun i => C i j * C i l * x l))) by (intros; rewrite <- sumn_scal_r; auto).
  rewrite sumn_swap. apply sumn_ext. intros i I. rewrite <- sumn_scal. apply sumn_ext. intros; ring.
Qed.
Lemma gram_quad : forall x, sumn k (fun j => x j * mulv k G x j) = sumn n (fun i => mulv k C x i * mulv k C x i).
Proof.
  intros x. rewrite (sumn_ext k _ (fun j => sumn n (fun i => x j * C i j * mulv k C x i))).
  2:{ intros j J. rewrite gram_mulv, <- sumn_scal. apply sumn_ext. intros; ring. }
  rewrite sumn_swap. apply sumn_ext. intros i I. rewrite sumn_scal_r. f_equal. unfold mulv. apply sumn_ext. intros; ring.
Qed.
Lemma gram_kernel : forall x, veq k (mulv k G x) (fun _ => 0) <-> veq n (mulv k C x) (fun _ => 0).
Proof.
  intros x. split; intros H.
  - intros i I. apply (sumn_sq_zero n (fun i => mulv k C x i)); auto. rewrite <- gram_quad. apply sumn_0. intros j J. rewrite H by auto. ring.
  - intros j J. rewrite gram_mulv. apply sumn_0. intros i I. rewrite H by auto. ring.
Qed.
Lemma gram_invertible : invertible k G <-> (forall x, veq n (mulv k C x) (fun _ => 0) -> veq k x (fun _ => 0)).
Proof. rewrite invertible_iff. split; intros H x K; apply H; apply gram_kernel; auto. Qed.
Lemma gram_symmetric : symmetric k G.
Proof. intros i j I J. unfold G, matrix_squared, trn, mulm. apply sumn_ext. intros; ring. Qed.

Variable B : matn.
Hypothesis HB : is_inverse k G B.
Let m := mulv k B (mulv n (trn C) Z).
Lemma normal_equations : forall j, (j < k)%nat -> sumn n (fun i => C i j * gap m i) = 0.
Proof.
  intros j J. unfold gap. rewrite (sumn_ext _ _ (fun i => C i j * Z i - C i j * mulv k C m i)) by (intros; ring).
  rewrite sumn_minus, <- gram_mulv. unfold m. rewrite (inverse_solve k G B _ HB j J). unfold mulv, trn. ring.
Qed.
(** distance of any other coefficient vector *)
Lemma sse_split : forall m', dotn n (gap m') (gap m') =
  dotn n (gap m) (gap m) + sumn n (fun i => mulv k C (fun j => m' j - m j) i * mulv k C (fun j => m' j - m j) i).
Proof.
  intros m'. set (d := fun j => m' j - m j).
  assert (E : forall i, gap m' i = gap m i - mulv k C d i).
  { intros i. unfold gap, d, mulv. rewrite (sumn_ext k (fun j => C i j * (m' j - m j)) (fun j => C i j * m' j - C i j * m j)) by (intros; ring).
    rewrite sumn_minus. ring. }
  assert (O : sumn n (fun i => gap m i * mulv k C d i) = 0).
  { unfold mulv at 1. rewrite (sumn_ext n _ (fun i => sumn k (fun j => d j * (C i j * gap m i)))).
    - rewrite sumn_swap. apply sumn_0. intros j J. rewrite sumn_scal, normal_equations by auto. ring.
    - intros i I. rewrite <- sumn_scal. apply sumn_ext. intros; ring. }
  unfold dotn. rewrite (sumn_ext n _ (fun i => gap m i * gap m i - 2 * (gap m i * mulv k C d i) + mulv k C d i * mulv k C d i)).
  - rewrite sumn_plus, sumn_minus, sumn_scal, O. ring.
  - intros i I. rewrite E. ring.
Qed.
Lemma sse_optimal : forall m', dotn n (gap m) (gap m) <= dotn n (gap m') (gap m') /\
  (dotn n (gap m') (gap m') <= dotn n (gap m) (gap m) -> veq k m' m).
Proof.
  intros m'. rewrite (sse_split m').
  assert (P : 0 <= sumn n (fun i => mulv k C (fun j => m' j - m j) i * mulv k C (fun j => m' j - m j) i)) by (apply sumn_nonneg; intros; nra).
  split; [lra|]. intros L.
  assert (K : veq k (fun j => m' j - m j) (fun _ => 0)).
  { apply (proj1 gram_invertible (ex_intro _ B HB)). intros i I.
    apply (sumn_sq_zero n (fun i => mulv k C (fun j => m' j - m j) i)); auto. lra. }
  intros j J. specialize (K j J). cbv beta in K. lra.
Qed.
(** an exact solution is the result *)
Lemma exact_solution : forall m', (forall i, (i < n)%nat -> Z i = mulv k C m' i) -> veq k m m'.
Proof.
  intros m' E. assert (Z0 : dotn n (gap m') (gap m') = 0).
  { apply sumn_0. intros i I. unfold gap. rewrite E by auto. ring. }
  destruct (sse_optimal m') as [_ H]. intros j J. symmetry. apply H; auto. rewrite Z0. apply sumn_nonneg. intros; nra.
Qed.
End Normal.
