(** C217: the kind of the dual of an ellipsoid.
    C218: the axes reported for a sphere away from the origin.
    C219: slices of a hyperboloid. *)
From Coq Require Import Reals List Arith Lra Lia Bool Psatz.
From Verif Require Import RVec Trig LNum MConics SpecConics LConics LDet LSlice PConics PConics2 PConics3 PShadow.
Import ListNotations.
Open Scope R_scope.

(** * Determinants *)
Lemma det_zero_col : forall n A, (0 < n)%nat -> (forall i, (i < n)%nat -> A i 0%nat = 0) -> det n A = 0.
Proof.
  intros n A N Z. pose proof (det_plus n A 0 (fun _ => 0) (fun _ => 0) N) as H.
  rewrite (det_ext n (setcol A 0 (vplus (fun _ => 0) (fun _ => 0))) (setcol A 0 (fun _ => 0))) in H.
  2:{ intros i j _ _. unfold setcol, vplus. destruct (j =? 0)%nat; lra. }
  rewrite (det_ext n A (setcol A 0 (fun _ => 0))); [lra|].
  intros i j I J. unfold setcol. destruct (Nat.eqb_spec j 0); subst; auto.
Qed.
Lemma det_first : forall n A, (forall i, (i < n)%nat -> A (S i) 0%nat = 0) ->
  det (S n) A = A 0%nat 0%nat * det n (fun i j => A (S i) (S j)).
Proof.
  intros n A Z. destruct (Req_EM_T (A 0%nat 0%nat) 0) as [e|e].
  - rewrite e, det_zero_col; [ring|lia|]. intros i I. destruct i; auto. apply Z. lia.
  - rewrite det_schur by auto. f_equal. apply det_ext. intros i j I J. unfold schur. rewrite Z by auto. field. auto.
Qed.
(** taking multiples of the other columns from the first *)
Lemma det_combine : forall n A y m, (m < n)%nat ->
  det n (setcol A 0 (fun i => A i 0%nat - sumn m (fun j => y j * A i (S j)))) = det n A.
Proof.
  intros n A y. induction m; intros M.
  - apply det_ext. intros i j I J. unfold setcol. destruct (Nat.eqb_spec j 0); auto. subst. cbn [sumn]. ring.
  - rewrite (det_ext n _ (setcol A 0 (vplus (vtimes (- y m) (fun i => A i (S m))) (fun i => A i 0%nat - sumn m (fun j => y j * A i (S j)))))).
    2:{ intros i j I J. unfold setcol, vplus, vtimes. destruct (Nat.eqb_spec j 0); auto. cbn [sumn]. ring. }
    rewrite det_linear, IHm by lia.
    rewrite (det_equal_cols n m (setcol A 0 (fun i => A i (S m))) 0); [ring|lia|].
    intros i I. unfold setcol. cbn [Nat.eqb]. reflexivity.
Qed.
Definition bordered (e : R) (w v : vecn) (P : matn) : matn := fun i j =>
  match i, j with O, O => e | O, S j => w j | S i, O => v i | S i, S j => P i j end.
Lemma det_bordered : forall n e w v P y, (forall i, (i < n)%nat -> sumn n (fun j => P i j * y j) = v i) ->
  det (S n) (bordered e w v P) = (e - sumn n (fun j => w j * y j)) * det n P.
Proof.
  intros n e w v P y H. rewrite <- (det_combine (S n) (bordered e w v P) y n) by lia. rewrite det_first.
  - unfold setcol at 1. cbn [Nat.eqb bordered]. f_equal.
    f_equal. apply sumn_ext. intros; ring.
  - intros i I. unfold setcol. cbn [Nat.eqb bordered]. rewrite <- (H i I), <- sumn_minus. apply sumn_0. intros; ring.
Qed.
(** adding a product of a column and a row *)
Lemma det_update : forall n P v w y k, k <> 0 -> (forall i, (i < n)%nat -> sumn n (fun j => P i j * y j) = v i) ->
  det n (fun i j => P i j + k * v i * w j) = (1 + k * sumn n (fun j => w j * y j)) * det n P.
Proof.
  intros n P v w y k K H. pose proof (det_bordered n (- / k) w v P y H) as E.
  assert (NZ : - / k <> 0) by (apply Ropp_neq_0_compat, Rinv_neq_0_compat; auto).
  rewrite det_schur in E by exact NZ. cbn [bordered] in E.
  rewrite (det_ext n (schur (bordered (- / k) w v P)) (fun i j => P i j + k * v i * w j)) in E.
  2:{ intros i j I J. unfold schur. cbn [bordered]. field. auto. }
  apply (f_equal (Rmult (- k))) in E. replace (- k * (- / k * det n (fun i j => P i j + k * v i * w j))) with (det n (fun i j => P i j + k * v i * w j)) in E by (field; auto).
  rewrite E. field. auto.
Qed.

(** * Inverses *)
Lemma pd_invertible : forall n A, positive_definite n A -> invertible n A.
Proof.
  induction n; intros A H; [exists A; split; intros i j I J; lia|].
  pose proof (pd_diag n A H) as P. destruct (IHn _ (pd_schur n A H)) as [B HB].
  exists (block_inverse n A B). apply block_inverse_ok; auto. lra.
Qed.
Lemma pd_inverse : forall n A B, positive_definite n A -> is_inverse n A B -> positive_definite n B.
Proof.
  intros n A B H IV x NZ. set (y := mulv n B x).
  assert (XY : veq n (mulv n A y) x) by (apply inverse_solve; auto).
  assert (NY : ~ veq n y (fun _ => 0)).
  { intros Z. apply NZ. intros i I. rewrite <- (XY i I). unfold mulv. apply sumn_0. intros j J. rewrite (Z j J). ring. }
  specialize (H y NY). cbv beta in H.
  replace (sumn n (fun i => sumn n (fun j => B i j * x i * x j))) with (sumn n (fun i => sumn n (fun j => A i j * y i * y j))); auto.
  transitivity (sumn n (fun i => y i * x i)).
  - apply sumn_ext. intros i I. rewrite <- (XY i I). unfold mulv at 1. rewrite <- sumn_scal. apply sumn_ext. intros; ring.
  - apply sumn_ext. intros i I. unfold y, mulv. rewrite Rmult_comm, <- sumn_scal. apply sumn_ext. intros; ring.
Qed.

Section ellipsoid.
Set Default Proof Using "All".
Variables (n : nat) (C Ai : matn).
Hypotheses (SY : symmetric (S n) C) (PD : positive_definite n C) (IV : is_inverse n C Ai).
Let b : vecn := fun i => C i n.
Let v : vecn := mulv n Ai b.
Let s := C n n - sumn n (fun i => b i * v i).
Lemma Av : forall i, (i < n)%nat -> sumn n (fun j => C i j * v j) = b i.
Proof. intros i I. exact (inverse_solve n C Ai b IV i I). Qed.
Lemma Ai_sym : forall i j, (i < n)%nat -> (j < n)%nat -> Ai i j = Ai j i.
Proof. intros i j I J. refine (inverse_symmetric n C Ai _ IV i j I J). intros a c HA HC. apply SY; lia. Qed.
Lemma vAi : forall j, (j < n)%nat -> sumn n (fun i => b i * Ai i j) = v j.
Proof. intros j J. unfold v, mulv. apply sumn_ext. intros i I. rewrite (Ai_sym i j) by auto. ring. Qed.
Lemma value_centre : value n C (fun i => - v i) = s.
Proof.
  pose proof (value_shift n C (fun i => - v i) v SY) as H. cbv beta in H.
  rewrite (sumn_0 n (fun i => v i * (sumn n (fun j => C i j * - v j) + C i n))) in H.
  2:{ intros i I. rewrite (sumn_ext n _ (fun j => - (C i j * v j))) by (intros; ring). rewrite sumn_opp, Av by auto. unfold b. ring. }
  rewrite (value_ext n C C (vplus (fun i => - v i) v) (fun _ => 0)) in H; [|apply meq_refl|intros i I; unfold vplus; ring].
  assert (Z : value n C (fun _ => 0) = C n n).
  { unfold value. rewrite (sumn_0 n (fun i => sumn n _)), (sumn_0 n (fun i => (C i n + C n i) * 0)); [ring|intros; ring|].
    intros; apply sumn_0; intros; ring. }
  rewrite Z in H. unfold s. 
  rewrite (sumn_ext n (fun i => sumn n (fun j => C i j * v i * v j)) (fun i => b i * v i)) in H; [lra|].
  intros i I. rewrite <- (Av i I), <- sumn_scal_r. apply sumn_ext. intros; ring.
Qed.
Lemma value_min : forall x, s <= value n C x.
Proof.
  intros x. rewrite (value_ext n C C x (vplus (fun i => - v i) (fun i => x i + v i))); [|apply meq_refl|intros i I; unfold vplus; ring].
  rewrite value_shift, value_centre by auto.
  rewrite (sumn_0 n (fun i => (x i + v i) * _)).
  2:{ intros i I. rewrite (sumn_ext n (fun j => C i j * - v j) (fun j => - (C i j * v j))) by (intros; ring). rewrite sumn_opp, Av by auto. unfold b. ring. }
  set (z := fun i => x i + v i). change (s <= s + 2 * 0 + sumn n (fun i => sumn n (fun j => C i j * z i * z j))).
  enough (0 <= sumn n (fun i => sumn n (fun j => C i j * z i * z j))) by lra.
  destruct (Req_EM_T (sumn n (fun i => z i * z i)) 0) as [e|e].
  - right. symmetry. apply sumn_0. intros i I. apply sumn_0. intros j J. rewrite (sumn_sq_zero n z e i I). ring.
  - left. apply (PD z). intros Z. apply e. apply sumn_0. intros i I. rewrite (Z i I). ring.
Qed.
Definition dual_of : matn := fun i j =>
  if (i <? n)%nat then (if (j <? n)%nat then Ai i j + / s * v i * v j else - v i / s) else (if (j <? n)%nat then - v j / s else / s).
Hypothesis NZ : s <> 0.
Lemma dual_ok : is_inverse (S n) C dual_of.
Proof.
  assert (K : forall i j, (i < S n)%nat -> (j < S n)%nat -> mulm (S n) C dual_of i j = idn i j).
  { intros i j I J. unfold mulm. cbn [sumn]. 
    assert (CN : forall k, (k < n)%nat -> C n k = b k) by (intros k HK; unfold b; rewrite (SY n k) by lia; reflexivity).
    assert (E1 : forall j, (j < n)%nat -> sumn n (fun l => C i l * dual_of l j) = sumn n (fun l => C i l * Ai l j) + / s * v j * sumn n (fun l => C i l * v l)).
    { intros k HK. rewrite <- sumn_scal, <- sumn_plus. apply sumn_ext. intros l L. unfold dual_of. destruct (Nat.ltb_spec l n), (Nat.ltb_spec k n); try lia. ring. }
    assert (E2 : sumn n (fun l => C i l * dual_of l n) = - / s * sumn n (fun l => C i l * v l)).
    { rewrite <- sumn_scal. apply sumn_ext. intros l L. unfold dual_of. destruct (Nat.ltb_spec l n), (Nat.ltb_spec n n); try lia. field. auto. }
    destruct (Nat.eq_dec j n) as [->|hj].
    - rewrite E2. unfold dual_of at 1. destruct (Nat.ltb_spec n n); try lia. destruct (Nat.eq_dec i n) as [->|hi].
      + unfold idn. rewrite Nat.eqb_refl. rewrite (sumn_ext n (fun l => C n l * v l) (fun l => b l * v l)) by (intros; rewrite CN; auto).
        replace (C n n) with (s + sumn n (fun l => b l * v l)) by (unfold s; ring). field. auto.
      + rewrite Av by lia. unfold idn. destruct (Nat.eqb_spec i n); [lia|]. unfold b. field. auto.
    - rewrite E1 by lia. unfold dual_of at 1. destruct (Nat.ltb_spec n n), (Nat.ltb_spec j n); try lia. destruct (Nat.eq_dec i n) as [->|hi].
      + rewrite (sumn_ext n (fun l => C n l * v l) (fun l => b l * v l)) by (intros; rewrite CN; auto).
        rewrite (sumn_ext n (fun l => C n l * Ai l j) (fun l => b l * Ai l j)) by (intros; rewrite CN; auto).
        rewrite vAi by lia. unfold idn. destruct (Nat.eqb_spec n j); [lia|].
        replace (C n n) with (s + sumn n (fun l => b l * v l)) by (unfold s; ring). field. auto.
      + destruct IV as [L _]. pose proof (L i j ltac:(lia) ltac:(lia)) as X. unfold mulm in X. rewrite X, Av by lia. unfold b. field. auto. }
  split; [exact K|]. intros i j I J.
  assert (DS : forall a c, (a < S n)%nat -> (c < S n)%nat -> dual_of a c = dual_of c a).
  { intros a c HA HC. unfold dual_of. destruct (Nat.ltb_spec a n), (Nat.ltb_spec c n); auto. rewrite (Ai_sym a c) by auto. ring. }
  transitivity (mulm (S n) C dual_of j i).
  - unfold mulm. apply sumn_ext. intros l L. rewrite (DS i l), (SY l j) by auto. unfold trn. ring.
  - rewrite K by auto. unfold idn. now rewrite Nat.eqb_sym.
Qed.
Lemma dual_det : det n dual_of = C n n / s * det n Ai.
Proof.
  rewrite (det_ext n dual_of (fun i j => Ai i j + / s * v i * v j)).
  - rewrite (det_update n Ai v v b (/ s)); [|apply Rinv_neq_0_compat; auto|intros i I; reflexivity].
    f_equal. replace (C n n) with (s + sumn n (fun l => v l * b l)). field; auto. unfold s.
    rewrite (sumn_ext n (fun l => v l * b l) (fun l => b l * v l)) by (intros; ring). ring.
  - intros i j I J. unfold dual_of. destruct (Nat.ltb_spec i n), (Nat.ltb_spec j n); auto; lia.
Qed.
End ellipsoid.

(** * C217 *)
(** the dual of an ellipsoid (a quadric with a positive definite quadratic part
    and a point inside) is found hyperbolic, elliptical or parabolic as the
    origin lies outside, inside or on it *)
Theorem C217_kind : forall inv n C, numpy_inv inv -> symmetric (S n) C -> positive_definite n C -> (exists x, value n C x < 0) ->
  exists D, dual inv n C = Ok D /\
  (is_hyperbolic n D <-> 0 < value n C (fun _ => 0)) /\
  (is_elliptical n D <-> value n C (fun _ => 0) < 0) /\
  (is_parabolic n D <-> value n C (fun _ => 0) = 0).
Proof.
  intros inv n C HI SY PD [x X]. destruct (pd_invertible n C PD) as [Ai IV].
  pose proof (value_min n C Ai SY PD IV x) as M.
  set (s := C n n - sumn n (fun i => C i n * mulv n Ai (fun i => C i n) i)) in *. assert (S0 : s < 0) by lra.
  assert (NZ : s <> 0) by lra.
  pose proof (dual_ok n C Ai SY PD IV NZ) as DO. pose proof (dual_det n C Ai SY PD IV NZ) as DD. fold s in DD.
  pose proof (HI (S n) C) as H. unfold dual. destruct (inv (S n) C) as [D|].
  2:{ exfalso. apply H. eexists. exact DO. }
  exists D. split; auto.
  assert (E : det n D = C n n / s * det n Ai).
  { transitivity (det n (dual_of n C Ai)); [|exact DD]. apply det_ext. intros i j I J. apply (inverse_unique (S n) C C); auto; try lia. apply meq_refl. }
  assert (Z : value n C (fun _ => 0) = C n n).
  { unfold value. rewrite (sumn_0 n (fun i => sumn n _)), (sumn_0 n (fun i => (C i n + C n i) * 0)); [ring|intros; ring|].
    intros; apply sumn_0; intros; ring. }
  rewrite Z. unfold is_hyperbolic, is_elliptical, is_parabolic. rewrite E.
  pose proof (pd_det n Ai (pd_inverse n C Ai PD IV)) as DA.
  assert (IS : / s < 0) by (apply Rinv_lt_0_compat; auto).
  assert (G : / s * det n Ai < 0) by nra. replace (C n n / s * det n Ai) with (C n n * (/ s * det n Ai)) by (field; auto).
  set (g := / s * det n Ai) in *. clearbody g.
  destruct (Rtotal_order (C n n) 0) as [T|[T|T]].
  - assert (0 < C n n * g) by nra. repeat split; intros; lra.
  - rewrite T, Rmult_0_l. repeat split; intros; lra.
  - assert (C n n * g < 0) by nra. repeat split; intros; lra.
Qed.
(** the same seen from a viewpoint *)
Lemma translate_symmetric : forall n C v, symmetric (S n) C -> symmetric (S n) (translate n C v).
Proof.
  intros n C v H i j I J. unfold trn. rewrite !translate_entries by auto. apply bil_sym. auto.
Qed.
Lemma pd_ext : forall n A B, meq n n A B -> positive_definite n A -> positive_definite n B.
Proof.
  intros n A B E H x NZ. specialize (H x NZ). cbv beta in *. erewrite sumn_ext; [exact H|]. intros i I. apply sumn_ext. intros j J.
  cbv beta. rewrite (E i j) by auto. reflexivity.
Qed.
Theorem C217_viewpoint : forall inv n C w, numpy_inv inv -> symmetric (S n) C -> positive_definite n C -> (exists x, value n C x < 0) ->
  exists D, dual inv n (translate n C (fun i => - w i)) = Ok D /\
  (is_hyperbolic n D <-> ~ contains n C w false) /\
  (is_elliptical n D \/ is_parabolic n D <-> contains n C w false).
Proof.
  intros inv n C w HI SY PD [x X].
  destruct (C217_kind inv n (translate n C (fun i => - w i)) HI (translate_symmetric _ _ _ SY)
    (pd_ext n C _ (meq_sym _ _ _ _ (translate_quadratic n C _)) PD)) as (D & E & H & L & P).
  { exists (fun i => x i - w i). rewrite translate_value. rewrite (value_ext n C C _ x); auto; [apply meq_refl|]. intros i I. unfold vminus. ring. }
  exists D. split; auto.
  assert (V : value n (translate n C (fun i => - w i)) (fun _ => 0) = value n C w).
  { rewrite translate_value. apply value_ext; [apply meq_refl|]. intros i I. unfold vminus. ring. }
  rewrite V in *. destruct (C60_translate n C (fun _ => 0) w) as (_ & _ & K). rewrite K. rewrite H, L, P. split; split; intros; try lra.
Qed.
Lemma axes_pd : forall n a, (forall i, (i < n)%nat -> 0 < a i) -> positive_definite n (from_axes n a).
Proof.
  intros n a P x NZ.
  rewrite (sumn_ext n _ (fun i => a i * (x i * x i))).
  - assert (N : 0 <= sumn n (fun i => a i * (x i * x i))).
    { apply sumn_nonneg. intros i I. specialize (P i I). pose proof (Rle_0_sqr (x i)). unfold Rsqr in *. nra. }
    destruct N as [N|N]; auto. exfalso. apply NZ. intros i I. pose proof (P i I) as Pi.
    assert (Z : sqrt (a i) * x i = 0).
    { apply (sumn_sq_zero n (fun i => sqrt (a i) * x i)); auto. rewrite N. apply sumn_ext. intros k K. specialize (P k K).
      replace (sqrt (a k) * x k * (sqrt (a k) * x k)) with (sqrt (a k) * sqrt (a k) * (x k * x k)) by ring. rewrite sqrt_sqrt by lra. reflexivity. }
    apply Rmult_integral in Z. destruct Z as [Z|Z]; auto. apply sqrt_eq_0 in Z; lra.
  - intros i I. unfold from_axes. rewrite (sumn_ext n _ (fun j => (if (j =? i)%nat then 1 else 0) * (a i * (x i * x j)))).
    + rewrite sumn_delta by auto. reflexivity.
    + intros j J. rewrite (Nat.eqb_sym i j). destruct (Nat.eqb_spec j i) as [->|h]; [|ring].
      destruct (Nat.ltb_spec i n); [ring|lia].
Qed.
Lemma axes_symmetric : forall n k a, symmetric k (from_axes n a).
Proof. intros n k a i j I J. unfold trn, from_axes. rewrite (Nat.eqb_sym j i). destruct (Nat.eqb_spec i j); subst; auto. Qed.
(** the ellipsoids made by [from_axes] do not become hyperbolas by taking the
    dual, unless they are first moved off the origin *)
Theorem C217_axes : forall inv n a v, numpy_inv inv -> (forall i, (i < n)%nat -> 0 < a i) ->
  (exists D, dual inv n (from_axes n a) = Ok D /\ is_elliptical n D /\ ~ is_hyperbolic n D) /\
  exists D, dual inv n (translate n (from_axes n a) v) = Ok D /\ (is_hyperbolic n D <-> 1 < sumn n (fun i => a i * (v i * v i))).
Proof.
  intros inv n a v HI P. pose proof (axes_pd n a P) as PD. pose proof (axes_symmetric n (S n) a) as SY.
  assert (IN : value n (from_axes n a) (fun _ => 0) = -1).
  { rewrite value_axes. rewrite sumn_0; [ring|]. intros; ring. }
  assert (EX : exists x, value n (from_axes n a) x < 0) by (exists (fun _ => 0); lra).
  split.
  - destruct (C217_kind inv n _ HI SY PD EX) as (D & E & H & L & _). exists D. rewrite IN in *. split; auto. split; [apply L; lra|].
    intros X. apply H in X. lra.
  - destruct (C217_viewpoint inv n _ (fun i => - v i) HI SY PD EX) as (D & E & H & _). exists D. split.
    + rewrite <- E. f_equal. f_equal. apply FunctionalExtensionality.functional_extensionality. intros i. ring.
    + rewrite H. destruct (C60_translate n (from_axes n a) (fun _ => 0) (fun i => - v i)) as (_ & _ & K). rewrite K, value_axes.
      rewrite (sumn_ext n (fun i => a i * (- v i * - v i)) (fun i => a i * (v i * v i))) by (intros; ring). split; intros; lra.
Qed.
(** the axes of the test: 500, 200, 100, and one unit up *)
Example C217_ex : (forall i, (i < 3)%nat -> 0 < vec_of3 (V3 500 200 100) i) /\
  1 < sumn 3 (fun i => vec_of3 (V3 500 200 100) i * (vec_of3 (V3 0 0 1) i * vec_of3 (V3 0 0 1) i)) /\ numpy_inv any_inv.
Proof.
  split; [|split; [rewrite sumn3'; simpl; lra|exact any_inv_ok]]. intros i I. destruct i as [|[|[|i]]]; simpl; try lra.
Qed.

(** * C218 *)
Section sphere.
Set Default Proof Using "All".
Variables (svd : svdn_fn) (n : nat) (r : R) (v : vecn) (C : matn).
Hypotheses (N0 : (0 < n)%nat) (R0 : 0 < r) (HC : from_semiaxes n (fun _ => r) = Some C).
Let E := translate n C v.
Let q := r * r + 2 * sumn n v - sumn n (fun i => v i * v i).
Lemma sphere_entries : forall i j, C i j = if (i =? j)%nat then (if (i <? n)%nat then 1 / (r * r) else -1) else 0.
Proof. intros i j. rewrite (from_semiaxes_ok n (fun _ => r)) in HC by auto. injection HC as <-. reflexivity. Qed.
Lemma E_symmetric : symmetric (S n) E.
Proof.
  apply translate_symmetric. intros i j I J. unfold trn. rewrite !sphere_entries, (Nat.eqb_sym j i).
  destruct (Nat.eqb_spec i j); subst; auto.
Qed.
Lemma E_linear : forall i, (i < n)%nat -> E i n = - (v i / (r * r)).
Proof.
  intros i I. unfold E. rewrite translate_linear by auto. rewrite (sumn_ext n _ (fun j => (if (j =? i)%nat then 1 else 0) * (v j / (r * r)))).
  - rewrite sumn_delta by auto. rewrite sphere_entries. destruct (Nat.eqb_spec i n); [lia|]. field. lra.
  - intros j J. rewrite sphere_entries, (Nat.eqb_sym i j). destruct (Nat.eqb_spec j i) as [->|h]; [|ring].
    destruct (Nat.ltb_spec i n); [field; lra|lia].
Qed.
Lemma E_value : forall p, value n E p = sumn n (fun i => (p i - v i) * (p i - v i)) / (r * r) - 1.
Proof.
  intros p. unfold E. rewrite translate_value, (value_semiaxes n (fun _ => r) C) by auto. f_equal. unfold Rdiv. rewrite <- sumn_scal_r. apply sumn_ext.
  intros i I. unfold vminus. field. lra.
Qed.
Lemma E_corner : E n n = sumn n (fun i => v i * v i) / (r * r) - 1.
Proof.
  transitivity (value n E (fun _ => 0)).
  - unfold value. rewrite (sumn_0 n (fun i => sumn n _)), (sumn_0 n (fun i => (E i n + E n i) * 0)); [ring|intros; ring|].
    intros; apply sumn_0; intros; ring.
  - rewrite E_value. f_equal. f_equal. apply sumn_ext. intros; ring.
Qed.
Lemma E_total : - (total (S n) E - total n E) = q / (r * r).
Proof.
  unfold total. cbn [sumn]. rewrite sumn_plus.
  rewrite (sumn_ext n (fun i => E i n) (fun i => (- / (r * r)) * v i)).
  2:{ intros i I. rewrite E_linear by auto. field. lra. }
  rewrite (sumn_ext n (fun j => E n j) (fun i => (- / (r * r)) * v i)).
  2:{ intros i I. rewrite (E_symmetric n i) by lia. unfold trn. rewrite E_linear by auto. field. lra. }
  rewrite E_corner, sumn_scal. unfold q. field. lra.
Qed.
Hypothesis HS : let '(U, s, V) := svd n (translate n C v) in is_svdn n (translate n C v) U s V.
Lemma E_svd : forall k, (k < n)%nat -> let '(U, s, V) := svd n E in s k = 1 / (r * r) /\ sumn n (fun j => V k j * V k j) = 1.
Proof.
  intros k K. unfold E. destruct (svd n (translate n C v)) as [[U s] V] eqn:SV. pose proof HS as H. rewrite SV in H || idtac.
  pose proof (svd_row_unit n _ U s V k H K) as RU. split; auto.
  destruct (find_pivot n (fun i _ => V k i)) as [(p & L & N)|Z].
  - pose proof (translate_quadratic n C v) as T.
    destruct (svd_diag n _ U s V k p H) as [X|X]; auto; [|contradiction|].
    + intros i j I J D. rewrite (T i j), sphere_entries by auto. destruct (Nat.eqb_spec i j); [contradiction|auto].
    + rewrite <- X, (T p p), sphere_entries, Nat.eqb_refl by auto. destruct (Nat.ltb_spec p n); [|lia].
      apply Rabs_pos_eq. apply Rlt_le, Rdiv_lt_0_compat; nra.
  - exfalso. rewrite sumn_0 in RU; [lra|]. intros i I. rewrite Z by auto. ring.
Qed.
Lemma sphere_major : (q < 0 -> major_axes svd n E = NonFinite) /\
  (0 <= q -> exists M, major_axes svd n E = Ok M /\ forall k, (k < n)%nat -> sumn n (fun j => M k j * M k j) = q / (r * r * (r * r))).
Proof.
  pose proof E_svd as SV. unfold major_axes. destruct (svd n E) as [[U s] V]. rewrite E_total.
  assert (RR : 0 < r * r) by nra. assert (RI : 0 < / (r * r)) by (apply Rinv_0_lt_compat; auto).
  assert (X : forall j, (j < n)%nat -> s j * (q / (r * r)) = q / (r * r * (r * r))).
  { intros j J. rewrite (proj1 (SV j J)). field. lra. }
  assert (Y : q / (r * r * (r * r)) = q * (/ (r * r) * / (r * r))) by (unfold Rdiv; rewrite Rinv_mult; reflexivity).
  assert (II : 0 < / (r * r) * / (r * r)) by (apply Rmult_lt_0_compat; auto). set (w := / (r * r) * / (r * r)) in *. clearbody w. split.
  - intros Q. destruct (existsb _ _) eqn:XB; auto. exfalso.
    rewrite existsb_seq in XB. specialize (XB 0%nat N0). cbv beta in XB. rewrite X in XB by auto.
    destruct (Rlt_dec (q / (r * r * (r * r))) 0) as [l|l]; [discriminate|]. apply l. rewrite Y. pose proof (Rmult_lt_compat_r w q 0 II Q). lra.
  - intros Q. rewrite (proj2 (existsb_seq n _)).
    + eexists. split; [reflexivity|]. intros k K. cbv beta.
      rewrite (sumn_ext n _ (fun j => q / (r * r * (r * r)) * (V k j * V k j))).
      * rewrite sumn_scal, (proj2 (SV k K)). ring.
      * intros j J. rewrite X by auto.
        replace (sqrt (q / (r * r * (r * r))) * V k j * (sqrt (q / (r * r * (r * r))) * V k j)) with
          (sqrt (q / (r * r * (r * r))) * sqrt (q / (r * r * (r * r))) * (V k j * V k j)) by ring.
        rewrite sqrt_sqrt; auto. rewrite Y. apply Rmult_le_pos; lra.
    + intros j J. rewrite X by auto. destruct (Rlt_dec (q / (r * r * (r * r))) 0) as [l|l]; auto. exfalso. rewrite Y in l.
      pose proof (Rmult_le_pos q w Q (Rlt_le _ _ II)). lra.
Qed.
End sphere.
(** the axes reported for a sphere of radius r round v all have the length
    sqrt (r^2 + 2 sum v - |v|^2) / r^2, which depends on where the sphere is, or are not
    numbers; their ends lie on the sphere only for special places *)
Theorem C218_moved : forall svd n r v C, (0 < n)%nat -> 0 < r -> from_semiaxes n (fun _ => r) = Some C ->
  (let '(U, s, V) := svd n (translate n C v) in is_svdn n (translate n C v) U s V) ->
  let q := r * r + 2 * sumn n v - sumn n (fun i => v i * v i) in
  (q < 0 -> major_axes svd n (translate n C v) = NonFinite) /\
  (0 <= q -> exists M, major_axes svd n (translate n C v) = Ok M /\ forall k, (k < n)%nat ->
     normn n (M k) = sqrt q / (r * r) /\
     (value n (translate n C v) (vplus v (M k)) = 0 <-> q = r * r * (r * r) * (r * r))).
Proof.
  intros svd n r v C N0 R0 HC HS q. destruct (sphere_major svd n r v C N0 R0 HC HS) as [A B]. fold q in A, B.
  split; auto. intros Q. destruct (B Q) as (M & EM & H). exists M. split; auto. intros k K. specialize (H k K).
  assert (RR : 0 < r * r) by nra. split.
  - unfold normn. rewrite H. rewrite sqrt_div_alt by nra. now rewrite sqrt_square by lra.
  - rewrite (E_value svd n r v C N0 R0 HC).
    rewrite (sumn_ext n _ (fun j => M k j * M k j)) by (intros; unfold vplus; ring). rewrite H.
    assert (X : q / (r * r * (r * r)) / (r * r) - 1 = (q - r * r * (r * r) * (r * r)) / (r * r * (r * r) * (r * r))) by (field; lra).
    rewrite X. split; intros Z.
    + apply Rmult_integral in Z. destruct Z as [Z|Z]; [lra|]. exfalso. revert Z. apply Rinv_neq_0_compat.
      repeat apply Rmult_integral_contrapositive_currified; lra.
    + rewrite Z. unfold Rdiv. ring.
Qed.
(** a decomposition of the quadratic part exists *)
Definition svd_round (r : R) : svdn_fn := fun _ _ => (idn, fun _ => 1 / (r * r), idn).
Lemma svd_round_ok : forall n r v C, 0 < r -> from_semiaxes n (fun _ => r) = Some C ->
  is_svdn n (translate n C v) idn (fun _ => 1 / (r * r)) idn.
Proof.
  intros n r v C R0 HC.
  assert (IO : orthogonal n idn).
  { assert (TI : meq n n (trn idn) idn) by (intros i j _ _; unfold trn, idn; now rewrite Nat.eqb_sym).
    split; (eapply meq_trans; [apply mulm_ext; [|]|apply mulm_id_l]); try apply meq_refl; auto. }
  split; auto. split; auto. split; [intros; apply Rlt_le, Rdiv_lt_0_compat; nra|]. split; [intros; lra|].
  intros i j I J. rewrite (translate_quadratic n C v i j) by auto.
  rewrite (sphere_entries (fun _ C => (idn, fun _ => 0, C)) n r v C ltac:(lia) R0 HC).
  rewrite (sumn_ext n _ (fun k => (if (k =? i)%nat then 1 else 0) * (1 / (r * r) * idn k j))).
  - rewrite sumn_delta by auto. unfold idn. destruct (Nat.eqb_spec i j); [destruct (Nat.ltb_spec i n); [ring|lia]|ring].
  - intros k K. unfold idn at 1. rewrite (Nat.eqb_sym i k). ring.
Qed.
(** a unit sphere: right exactly if |v|^2 = 2 sum v, as for the (2, 0, 0) of the test; one
    unit along the axis the ends miss the sphere, and three units along there are none *)
Theorem C218_unit : forall v, let S v := translate 3 (from_axes 3 (fun _ => 1)) v in
  (forall M, major_axes (svd_round 1) 3 (S v) = Ok M -> (value 3 (S v) (vplus v (M 0%nat)) = 0 <->
     sumn 3 (fun i => v i * v i) = 2 * sumn 3 v)) /\
  (exists M, major_axes (svd_round 1) 3 (S (vec_of3 (V3 2 0 0))) = Ok M) /\
  (exists M, major_axes (svd_round 1) 3 (S (vec_of3 (V3 1 0 0))) = Ok M /\ normn 3 (M 0%nat) = sqrt 2) /\
  major_axes (svd_round 1) 3 (S (vec_of3 (V3 3 0 0))) = NonFinite.
Proof.
  intros v S.
  assert (HC : from_semiaxes 3 (fun _ => 1) = Some (from_axes 3 (fun _ => 1))).
  { rewrite from_semiaxes_ok by (intros; lra). f_equal. apply FunctionalExtensionality.functional_extensionality. intros i.
    apply FunctionalExtensionality.functional_extensionality. intros j. unfold from_axes. destruct (i =? j)%nat, (i <? 3)%nat; lra. }
  assert (T : forall w, let q := 1 * 1 + 2 * sumn 3 w - sumn 3 (fun i => w i * w i) in
    (q < 0 -> major_axes (svd_round 1) 3 (S w) = NonFinite) /\
    (0 <= q -> exists M, major_axes (svd_round 1) 3 (S w) = Ok M /\ forall k, (k < 3)%nat ->
     normn 3 (M k) = sqrt q / (1 * 1) /\ (value 3 (S w) (vplus w (M k)) = 0 <-> q = 1 * 1 * (1 * 1) * (1 * 1)))).
  { intros w. apply (C218_moved (svd_round 1) 3 1 w (from_axes 3 (fun _ => 1)) ltac:(lia) ltac:(lra) HC).
    exact (svd_round_ok 3 1 w _ ltac:(lra) HC). }
  split; [|split; [|split]].
  - intros M HM. destruct (T v) as [T1 T2].
    destruct (Rlt_le_dec (1 * 1 + 2 * sumn 3 v - sumn 3 (fun i => v i * v i)) 0) as [L|L].
    + rewrite (T1 L) in HM. discriminate.
    + destruct (T2 L) as (M' & E & H). rewrite E in HM. injection HM as <-. destruct (H 0%nat ltac:(lia)) as [_ X]. rewrite X. split; intros; lra.
  - destruct (T (vec_of3 (V3 2 0 0))) as [_ T2]. destruct T2 as (M & E & _); [rewrite !sumn3'; simpl; lra|]. now exists M.
  - destruct (T (vec_of3 (V3 1 0 0))) as [_ T2]. destruct T2 as (M & E & H); [rewrite !sumn3'; simpl; lra|]. exists M. split; auto.
    destruct (H 0%nat ltac:(lia)) as [X _]. rewrite X, !sumn3'. simpl.
    replace (1 * 1 + 2 * (1 + 0 + 0) - (1 * 1 + 0 * 0 + 0 * 0)) with 2 by ring. field.
  - destruct (T (vec_of3 (V3 3 0 0))) as [T1 _]. apply T1. rewrite !sumn3'. simpl. lra.
Qed.
Example C218_ex : exists C, from_semiaxes 3 (fun _ => 2) = Some C /\
  (let '(U, s, V) := svd_round 2 3%nat (translate 3 C (vec_of3 (V3 1 1 1))) in is_svdn 3 (translate 3 C (vec_of3 (V3 1 1 1))) U s V) /\
  0 <= 2 * 2 + 2 * sumn 3 (vec_of3 (V3 1 1 1)) - sumn 3 (fun i => vec_of3 (V3 1 1 1) i * vec_of3 (V3 1 1 1) i).
Proof.
  pose proof (from_semiaxes_ok 3 (fun _ => 2) ltac:(intros; lra)) as E. eexists. split; [exact E|]. split.
  - exact (svd_round_ok 3 2 (vec_of3 (V3 1 1 1)) _ ltac:(lra) E).
  - rewrite !sumn3'. simpl. lra.
Qed.

(** * C219 *)
(** the hyperboloid x^2/a^2 + y^2/b^2 - z^2/c^2 = 1 of the test *)
Definition hyperboloid (a b c : R) : matn := from_axes 3 (vec_of3 (V3 (1 / (a * a)) (1 / (b * b)) (- (1 / (c * c))))).
Definition upright (p q : R) : vecn := fun i => match i with O => p | 1%nat => q | _ => 0 end.
(** an upright plane through the centre cuts it in the hyperbola with the height c and the
    half width r of the plane's direction in the waist *)
Theorem C219_cut : forall a b c p q, 0 < a -> 0 < b -> 0 < c -> p <> 0 \/ q <> 0 ->
  exists h tr pt, slice 3 (hyperboloid a b c) (upright p q) None = Ok (h, tr, pt) /\
  veq 3 pt (fun _ => 0) /\ is_hyperbolic 2 h /\
  forall u w, value 2 h (fun i => match i with O => u | _ => w end) =
    u * u * ((q * q / (a * a) + p * p / (b * b)) / (p * p + q * q)) - w * w / (c * c) - 1.
Proof.
  intros a b c p q A0 B0 C0 NZ. set (d := sqrt (p * p + q * q)).
  assert (PQ : 0 < p * p + q * q) by (destruct NZ; nra).
  assert (D0 : 0 < d) by (apply sqrt_lt_R0; auto). assert (DD : d * d = p * p + q * q) by (apply sqrt_sqrt; lra).
  assert (NM : normn 3 (upright p q) = d).
  { unfold normn, d. f_equal. rewrite sumn3'. unfold upright. ring. }
  assert (EH : hessian_normal 3 (upright p q) = Some (fun i => upright p q i / d)).
  { unfold hessian_normal. rewrite NM. destruct (Req_EM_T d 0); [lra|reflexivity]. }
  assert (EO : plane_offset 3 (upright p q) = Some (fun i => - (upright p q i / d * (upright p q 3%nat / d)))).
  { unfold plane_offset. rewrite EH. reflexivity. }
  set (n := to_vec3 (fun i => upright p q i / d)).
  assert (EN : n = V3 (p / d) (q / d) 0) by (unfold n, to_vec3, upright; f_equal; field; lra).
  assert (V1 : perpendicular3 n = Ok (V3 (q / d) (- (p / d)) 0)).
  { assert (X : cross n ez = V3 (q / d) (- (p / d)) 0) by (rewrite EN; vunf; f_equal; ring).
    unfold perpendicular3. rewrite X. destruct (Req_EM_T (norm (V3 (q / d) (- (p / d)) 0)) 0) as [e|e]; auto.
    exfalso. apply norm_zero_iff in e. injection e as e1 e2. assert (Q0 : q = 0) by (replace q with (q / d * d) by (field; lra); rewrite e1; ring).
    assert (P0 : p = 0) by (replace p with (- - (p / d) * d) by (field; lra); rewrite e2; ring). destruct NZ; auto. }
  assert (V2 : cross (V3 (q / d) (- (p / d)) 0) n = V3 0 0 1).
  { rewrite EN. vunf. f_equal; try ring. replace (q / d * (q / d) - - (p / d) * (p / d)) with ((p * p + q * q) / (d * d)) by (field; lra). rewrite DD. field. lra. }
  set (o := fun i => - (upright p q i / d * (upright p q 3%nat / d))) in *.
  set (m := slice_matrix 3 [vec_of3 (V3 (q / d) (- (p / d)) 0); vec_of3 (V3 0 0 1)] o).
  assert (SL : slice 3 (hyperboloid a b c) (upright p q) None = Ok (transform 3 (hyperboloid a b c) m, trn m, o)).
  { unfold slice, plane_normal_of. rewrite EH, EO. unfold default_axes, perpendicular_vector. fold n. rewrite V1. cbn [rbind Nat.eqb length].
    change (to_vec3 (vec_of3 (V3 (q / d) (- (p / d)) 0))) with (V3 (q / d) (- (p / d)) 0). fold n. rewrite V2. reflexivity. }
  assert (O0 : forall i, o i = 0) by (intros i; unfold o, upright; cbv beta iota; unfold Rdiv; ring).
  exists (transform 3 (hyperboloid a b c) m), (trn m), o. split; auto. split; [intros i _; apply O0|].
  set (k := (q * q / (a * a) + p * p / (b * b)) / (p * p + q * q)).
  assert (K0 : 0 < k).
  { unfold k. apply Rdiv_lt_0_compat; auto. assert (0 < / (a * a)) by (apply Rinv_0_lt_compat; nra). assert (0 < / (b * b)) by (apply Rinv_0_lt_compat; nra).
    unfold Rdiv. pose proof (Rle_0_sqr q). pose proof (Rle_0_sqr p). unfold Rsqr in *.
    destruct (Req_EM_T p 0) as [e|e]; [assert (0 < q * q) by (subst p; lra)|assert (0 < p * p) by nra]; nra. }
  assert (EN4 : forall i j, (i < 3)%nat -> (j < 3)%nat -> transform 3 (hyperboloid a b c) m i j = from_axes 2 (fun i => match i with O => k | _ => - (1 / (c * c)) end) i j).
  { assert (KD : k = (q / d) * (q / d) / (a * a) + (p / d) * (p / d) / (b * b)).
    { unfold k. rewrite <- DD. field. lra. }
    intros i j I J. rewrite transform_entries. unfold bil. cbn [sumn]. unfold m, slice_matrix, hyperboloid, from_axes.
    destruct i as [|[|[|i]]]; [| | |lia]; (destruct j as [|[|[|j]]]; [| | |lia]); cbn [Nat.eqb Nat.ltb Nat.leb Nat.sub nth app vec_of3 vx vy vz];
      rewrite ?O0, ?KD; field; lra. }
  split.
  - unfold is_hyperbolic. rewrite (det_ext 2 _ _ (fun i j I J => EN4 i j (Nat.lt_lt_succ_r _ _ I) (Nat.lt_lt_succ_r _ _ J))).
    cbn [det sumn pow]. unfold minor, from_axes. cbn [Nat.eqb Nat.ltb Nat.leb].
    assert (0 < 1 / (c * c)) by (apply Rdiv_lt_0_compat; nra). nra.
  - intros u w. rewrite (value_ext 2 _ _ _ _ EN4 (fun i I => eq_refl)). rewrite value_axes. cbn [sumn]. field. lra.
Qed.
(** the test: the plane across the second axis, with the semiaxes 500 and 2 *)
Theorem C219_test : forall inv a b c, numpy_inv inv -> 0 < a -> 0 < b -> 0 < c ->
  is_hyperbolic 3 (hyperboloid a b c) /\
  (exists o, center inv 3 (hyperboloid a b c) = Ok o /\ veq 3 o (fun _ => 0)) /\
  exists h tr pt, slice 3 (hyperboloid a b c) (upright 0 1) None = Ok (h, tr, pt) /\
    sqrt (1 / Rabs (h 0%nat 0%nat)) = a /\ sqrt (1 / Rabs (h 1%nat 1%nat)) = c.
Proof.
  intros inv a b c HI A0 B0 C0.
  assert (IA : 0 < 1 / (a * a)) by (apply Rdiv_lt_0_compat; nra). assert (IB : 0 < 1 / (b * b)) by (apply Rdiv_lt_0_compat; nra).
  assert (IC : 0 < 1 / (c * c)) by (apply Rdiv_lt_0_compat; nra). repeat split.
  - unfold is_hyperbolic. rewrite det_diag.
    + cbn [prodn]. unfold hyperboloid, from_axes. cbn [Nat.eqb Nat.ltb Nat.leb vec_of3 vx vy vz].
      pose proof (Rmult_lt_0_compat _ _ (Rmult_lt_0_compat _ _ IA IB) IC). lra.
    + intros i j I J D. unfold hyperboloid, from_axes. destruct (Nat.eqb_spec i j); [contradiction|auto].
  - set (B := from_axes 3 (vec_of3 (V3 (a * a) (b * b) (- (c * c))))).
    assert (IV : is_inverse 3 (hyperboloid a b c) B).
    { split; intros i j I J; unfold mulm, hyperboloid, B, from_axes, idn; rewrite sumn3';
      (destruct i as [|[|[|i]]]; [| | |lia]); (destruct j as [|[|[|j]]]; [| | |lia]); cbn [Nat.eqb Nat.ltb Nat.leb vec_of3 vx vy vz]; field; lra. }
    pose proof (HI 3%nat (hyperboloid a b c)) as H. unfold center. destruct (inv 3%nat (hyperboloid a b c)) as [D|]; [|exfalso; apply H; now exists B].
    eexists. split; [reflexivity|]. intros i I. unfold mulv. apply sumn_0. intros j J. unfold hyperboloid, from_axes.
    destruct (Nat.eqb_spec j 3); [lia|ring].
  - destruct (C219_cut a b c 0 1 A0 B0 C0 ltac:(right; lra)) as (h & tr & pt & E & _ & _ & V). exists h, tr, pt. split; auto.
    assert (H : h 0%nat 0%nat = 1 / (a * a) /\ h 1%nat 1%nat = - (1 / (c * c))).
    { pose proof (V 0 0) as V0. pose proof (V 1 0) as V1. pose proof (V (-1) 0) as V2. pose proof (V 0 1) as V3. pose proof (V 0 (-1)) as V4.
      unfold value in V0, V1, V2, V3, V4. cbn [sumn] in V0, V1, V2, V3, V4.
      replace ((1 * 1 / (a * a) + 0 * 0 / (b * b)) / (0 * 0 + 1 * 1)) with (1 / (a * a)) in V0, V1, V2, V3, V4 by (field; lra).
      unfold Rdiv in V0, V1, V2, V3, V4 |- *. split; lra. }
    destruct H as [H0 H1]. rewrite H0, H1, Rabs_Ropp, !Rabs_pos_eq by lra.
    replace (1 / (1 / (a * a))) with (a * a) by (field; lra). replace (1 / (1 / (c * c))) with (c * c) by (field; lra).
    rewrite !sqrt_square by lra. auto.
Qed.
Example C219_ex : 0 < 500 /\ 0 < 300 /\ 0 < 2 /\ (0 <> 0 \/ 1 <> 0) /\ numpy_inv any_inv.
Proof. repeat split; try lra. exact any_inv_ok. Qed.

Print Assumptions C217_kind.
Print Assumptions C217_viewpoint.
Print Assumptions C217_axes.
Print Assumptions C218_moved.
Print Assumptions C218_unit.
Print Assumptions C219_cut.
Print Assumptions C219_test.
