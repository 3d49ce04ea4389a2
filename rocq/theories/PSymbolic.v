(** C197: the symbolic conics used for validation. *)
From Coq Require Import Reals Lra Lia List Psatz Arith.
From Verif Require Import RVec LNum SpecConics SpecSymbolic MConics MSymbolic LConics PConics.
Open Scope R_scope.

(** the two implementations agree, failures included *)
Theorem C197_agree : forall inv n C,
  (forall c, sym_center inv n C = Ok c <-> center inv n C = Ok c) /\
  (sym_center inv n C = Raise ValueError <-> center inv n C = Raise LinAlgError) /\
  (forall D, sym_dual inv n C = Ok D <-> dual inv n C = Ok D) /\
  (sym_dual inv n C = Raise ValueError <-> dual inv n C = Raise LinAlgError) /\
  (forall p, veq (S n) (sym_polar_plane n C (Some p)) (polar_plane n C p)) /\
  (forall i, sym_polar_plane n C None i = C i n).
Proof.
  intros inv n C. unfold sym_center, center, sym_dual, dual.
  change (fun i j : nat => C i j) with C.
  destruct (inv n C); destruct (inv (S n) C); (do 4 (split; [split; intros; (discriminate || congruence || auto)|])).
  all: split; [intros p i I; unfold sym_polar_plane, polar_plane, mulv; apply sumn_ext; intros j J; unfold augment; reflexivity|].
  all: intros i; unfold sym_polar_plane, mulv; cbn [sumn]; rewrite sumn_0;
    [rewrite Nat.ltb_irrefl; ring | intros j J; destruct (Nat.ltb_spec j n); [ring|lia]].
Qed.

(** Cauchy's inequality *)
Lemma cauchy : forall n u v, sumn n (fun i => u i * v i) * sumn n (fun i => u i * v i) <=
  sumn n (fun i => u i * u i) * sumn n (fun i => v i * v i).
Proof.
  intros n u v. set (a := sumn n (fun i => u i * u i)). set (b := sumn n (fun i => u i * v i)). set (c := sumn n (fun i => v i * v i)).
  assert (P : forall t, 0 <= a * (t * t) + 2 * t * b + c).
  { intros t. replace (a * (t * t) + 2 * t * b + c) with (sumn n (fun i => (t * u i + v i) * (t * u i + v i))).
    - apply sumn_nonneg. intros; apply Rle_0_sqr.
    - unfold a, b, c. rewrite (sumn_ext n _ (fun i => (t * t) * (u i * u i) + (2 * t) * (u i * v i) + v i * v i)) by (intros; ring).
      rewrite !sumn_plus, !sumn_scal. ring. }
  assert (A : 0 <= a) by (apply sumn_nonneg; intros; apply Rle_0_sqr).
  destruct (Req_EM_T a 0) as [Z|NZ].
  - rewrite Z in *. assert (b = 0).
    { destruct (Req_EM_T b 0); auto. exfalso. pose proof (P (- (c + 1) / (2 * b))) as X.
      replace (0 * (- (c + 1) / (2 * b) * (- (c + 1) / (2 * b))) + 2 * (- (c + 1) / (2 * b)) * b + c) with (-1) in X by (field; auto). lra. }
    rewrite H. lra.
  - pose proof (P (- b / a)) as X.
    replace (a * (- b / a * (- b / a)) + 2 * (- b / a) * b + c) with ((a * c - b * b) / a) in X by (field; auto).
    assert (0 < a) by lra. apply Rmult_le_compat_r with (r := a) in X; [|lra].
    unfold Rdiv in X. rewrite Rmult_assoc, Rinv_l in X by auto. lra.
Qed.

Theorem C197_distance : forall n plane, (exists i, (i < n)%nat /\ plane i <> 0) ->
  exists d, sym_origin_distance n plane = Some d /\ distance_from_origin n plane (Rabs d) /\
    (0 < d <-> 0 < plane_value n plane (fun _ => 0)).
Proof.
  intros n plane (i & I & NZ). unfold sym_origin_distance.
  set (q := sumn n (fun i => plane i * plane i)).
  assert (Q : 0 < q).
  { assert (0 <= q) by (apply sumn_nonneg; intros; apply Rle_0_sqr).
    destruct (Req_EM_T q 0) as [Z|]; [|lra]. exfalso. apply NZ. exact (sumn_sq_zero n plane Z i I). }
  assert (SQ : 0 < sqrt q) by (apply sqrt_lt_R0; auto). assert (SS : sqrt q * sqrt q = q) by (apply sqrt_sqrt; lra).
  unfold fdiv. destruct (Req_EM_T (sqrt q) 0); [lra|]. exists (plane n / sqrt q). split; auto.
  assert (RR : Rabs (plane n / sqrt q) * Rabs (plane n / sqrt q) = plane n * plane n / q).
  { rewrite <- Rabs_mult, Rabs_right by (apply Rle_ge, Rle_0_sqr). rewrite <- SS at 3. field. lra. }
  split.
  - split; [apply Rabs_pos|]. split.
    + exists (fun i => - (plane n / q) * plane i). split.
      * unfold on_plane, plane_value. rewrite (sumn_ext n _ (fun i => - (plane n / q) * (plane i * plane i))) by (intros; ring).
        rewrite sumn_scal. fold q. field. lra.
      * rewrite (sumn_ext n _ (fun i => (plane n / q * (plane n / q)) * (plane i * plane i))) by (intros; ring).
        rewrite sumn_scal, RR. fold q. field. lra.
    + intros x X. unfold on_plane, plane_value in X. pose proof (cauchy n plane x) as C. fold q in C.
      replace (sumn n (fun i0 => plane i0 * x i0)) with (- plane n) in C by lra.
      rewrite RR. apply Rmult_le_reg_l with q; auto. replace (q * (plane n * plane n / q)) with (- plane n * - plane n) by (field; lra). exact C.
  - unfold plane_value. rewrite (sumn_0 n) by (intros; ring). rewrite Rplus_0_l. split; intros H.
    + replace (plane n) with (plane n / sqrt q * sqrt q) by (field; lra). apply Rmult_lt_0_compat; auto.
    + apply Rdiv_lt_0_compat; auto.
Qed.
Theorem C197_level : forall n plane, (forall i, (i < n)%nat -> plane i = 0) -> sym_origin_distance n plane = None.
Proof.
  intros n plane Z. unfold sym_origin_distance. rewrite sumn_0 by (intros i I; rewrite Z by auto; ring).
  rewrite sqrt_0. unfold fdiv. destruct (Req_EM_T 0 0); congruence.
Qed.

(** an ellipsoid seen from the origin: the polar plane of the origin *)
Lemma ellipsoid_value : forall n a v x, (forall i, (i < n)%nat -> a i <> 0) ->
  value n (ellipsoid n a v) x = sumn n (fun i => ((x i - v i) / a i) * ((x i - v i) / a i)) - 1.
Proof.
  intros n a v x A. unfold value.
  rewrite (sumn_ext n (fun i => sumn n (fun j => ellipsoid n a v i j * x i * x j)) (fun i => x i * x i / (a i * a i))).
  - rewrite (sumn_ext n (fun i => (ellipsoid n a v i n + ellipsoid n a v n i) * x i) (fun i => - (2 * (v i * x i) / (a i * a i)))).
    + unfold ellipsoid at 1. rewrite Nat.eqb_refl.
      rewrite (sumn_ext n (fun i => (x i - v i) / a i * ((x i - v i) / a i))
        (fun i => x i * x i / (a i * a i) + - (2 * (v i * x i) / (a i * a i)) + v i / a i * (v i / a i))).
      * rewrite !sumn_plus. ring.
      * intros i I. specialize (A i I). field. auto.
    + intros i I. unfold ellipsoid. destruct (Nat.eqb_spec i n); [lia|]. rewrite Nat.eqb_refl. specialize (A i I). field. auto.
  - intros i I. rewrite (sumn_ext n _ (fun j => (if (j =? i)%nat then 1 else 0) * (x j * x j / (a j * a j)))).
    + now rewrite sumn_delta.
    + intros j J. unfold ellipsoid. destruct (Nat.eqb_spec i n); [lia|]. destruct (Nat.eqb_spec j n); [lia|].
      rewrite (Nat.eqb_sym i j). destruct (Nat.eqb_spec j i); [subst; specialize (A i I); field; auto|ring].
Qed.
Theorem C197_ellipsoid : forall n a v, (forall i, (i < n)%nat -> 0 < a i) -> (exists i, (i < n)%nat /\ v i <> 0) ->
  let c := sumn n (fun i => (v i / a i) * (v i / a i)) in
  let g := sumn n (fun i => (v i / (a i * a i)) * (v i / (a i * a i))) in
  exists d, sym_origin_distance n (sym_polar_plane n (ellipsoid n a v) None) = Some d /\
    d * sqrt g = c - 1 /\
    (* positive exactly if the origin is outside the ellipsoid *)
    (0 < d <-> 0 < value n (ellipsoid n a v) (fun _ => 0)) /\
    (d < 0 <-> value n (ellipsoid n a v) (fun _ => 0) < 0).
Proof.
  intros n a v A (i & I & NZ) c g.
  destruct (C197_agree (fun _ _ => None) n (ellipsoid n a v)) as (_ & _ & _ & _ & _ & P).
  unfold sym_origin_distance. rewrite (P n).
  assert (EN : ellipsoid n a v n n = c - 1) by (unfold ellipsoid; rewrite Nat.eqb_refl; reflexivity). rewrite EN.
  assert (G : sumn n (fun i0 => sym_polar_plane n (ellipsoid n a v) None i0 * sym_polar_plane n (ellipsoid n a v) None i0) = g).
  { apply sumn_ext. intros j J. rewrite P. unfold ellipsoid. destruct (Nat.eqb_spec j n); [lia|]. rewrite Nat.eqb_refl.
    specialize (A j J). field. lra. }
  rewrite G.
  assert (PG : 0 < g).
  { assert (0 <= g) by (apply sumn_nonneg; intros; apply Rle_0_sqr).
    destruct (Req_EM_T g 0) as [Z|]; [|lra]. exfalso.
    pose proof (sumn_sq_zero n (fun i => v i / (a i * a i)) Z i I) as X. cbv beta in X. specialize (A i I).
    apply NZ. replace (v i) with (v i / (a i * a i) * (a i * a i)) by (field; lra). rewrite X. ring. }
  assert (SG : 0 < sqrt g) by (apply sqrt_lt_R0; auto).
  unfold fdiv. destruct (Req_EM_T (sqrt g) 0); [lra|]. exists ((c - 1) / sqrt g).
  split; auto. split; [field; lra|].
  rewrite ellipsoid_value by (intros j J; specialize (A j J); lra).
  replace (sumn n (fun i0 => (0 - v i0) / a i0 * ((0 - v i0) / a i0))) with c
    by (apply sumn_ext; intros j J; specialize (A j J); field; lra).
  assert (ID : c - 1 = (c - 1) / sqrt g * sqrt g) by (field; lra).
  set (d := (c - 1) / sqrt g) in *. rewrite ID. clearbody d. split; split; intros; nra.
Qed.
Example C197_ex : sym_origin_distance 2 (sym_polar_plane 2 (ellipsoid 2 (fun _ => 1) (fun i => match i with O => 3 | _ => 4 end)) None) = Some (24 / 5).
Proof.
  unfold sym_origin_distance, sym_polar_plane, mulv, ellipsoid; simpl.
  match goal with |- fdiv ?a (sqrt ?b) = _ => replace b with (5 * 5) by field; replace a with 24 by field end.
  rewrite sqrt_square by lra. unfold fdiv. destruct (Req_EM_T 5 0); [lra|]. reflexivity.
Qed.

Print Assumptions C197_agree.
Print Assumptions C197_distance.
Print Assumptions C197_level.
Print Assumptions C197_ellipsoid.
