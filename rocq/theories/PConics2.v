(** Properties C65, C66, C70-C73 and C103: slices, projections, classification
    and axes of quadrics. *)
From Coq Require Import Reals Lra Lia List Arith Bool Psatz.
From Verif Require Import RVec Trig LNum SpecConics MConics LConics LSlice LDet LPlane PConics.
Import ListNotations.
Open Scope R_scope.

(** * C65 slices *)
(** any dimension, axes given by the caller *)
Theorem C65_value : forall k C plane axes, ~ veq (S k) plane zero ->
  (length axes = k -> exists con tr pt, slice (S k) C plane (Some axes) = Ok (con, tr, pt) /\ on_plane (S k) plane pt /\
    forall u, value k con u = value (S k) C (fun i => pt i + sumn k (fun j => u j * nth j axes zero i))) /\
  (length axes <> k -> slice (S k) C plane (Some axes) = Raise ValueError).
Proof.
  intros k C plane axes NZ. destruct (C69_offset (S k) plane NZ) as (h & o & Eh & Eo & _ & O & _).
  unfold slice, plane_normal_of. rewrite Eh, Eo. cbn [rbind].
  replace (S k - 1)%nat with k by lia. split; intros L.
  - rewrite (proj2 (Nat.eqb_eq _ _) L). do 3 eexists. split; [reflexivity|]. split; auto.
    intros u. rewrite slice_value by auto. unfold slice_point. now rewrite L.
  - destruct (Nat.eqb_spec (length axes) k); [contradiction|reflexivity].
Qed.

Definition comb (pt a b : vecn) (u v : R) : vecn := fun i => pt i + u * a i + v * b i.
(** three dimensions, axes chosen by the code *)
Theorem C65_default : forall C plane, ~ veq 3 plane zero ->
  exists con tr pt a b, slice 3 C plane None = Ok (con, tr, pt) /\
  (forall u, value 2 con u = value 3 C (comb pt a b (u 0%nat) (u 1%nat))) /\
  (forall u v, on_plane 3 plane (comb pt a b u v)) /\
  (forall x, on_plane 3 plane x -> exists! uv, veq 3 x (comb pt a b (fst uv) (snd uv))).
Proof.
  intros C plane NZ. destruct (C69_offset 3 plane NZ) as (h & o & Eh & Eo & U & O & SAME & _).
  set (n := to_vec3 h).
  assert (NN : dot n n = 1) by (rewrite sumn3 in U; unfold n, to_vec3; vunf; lra).
  assert (N0 : n <> vzero) by (intros X; rewrite X in NN; revert NN; vunf; lra).
  destruct (proj1 (C67_perpendicular n) N0) as (v1 & Ev & V0 & VN).
  set (v2 := cross v1 n).
  assert (SL : slice 3 C plane None = Ok (transform 3 C (slice_matrix 3 [vec_of3 v1; vec_of3 v2] o),
     trn (slice_matrix 3 [vec_of3 v1; vec_of3 v2] o), o)).
  { unfold slice, plane_normal_of. rewrite Eh, Eo. unfold default_axes, perpendicular_vector. fold n. rewrite Ev. cbn [rbind].
    replace (to_vec3 (vec_of3 v1)) with v1 by (destruct v1; reflexivity). reflexivity. }
  exists (transform 3 C (slice_matrix 3 [vec_of3 v1; vec_of3 v2] o)), (trn (slice_matrix 3 [vec_of3 v1; vec_of3 v2] o)), o, (vec_of3 v1), (vec_of3 v2).
  split; [exact SL|].
  assert (VV : 0 < dot v1 v1).
  { destruct (Req_EM_T (norm v1) 0) as [e|e]; [exfalso; apply V0; now apply norm_zero_iff|].
    destruct (Rle_lt_dec (dot v1 v1) 0) as [l|l]; auto. exfalso. apply e. unfold norm.
    apply sqrt_neg_0. exact l. }
  assert (V22 : dot v2 v2 = dot v1 v1).
  { unfold v2. now apply cross_unit_len. }
  assert (V12 : dot v2 v1 = 0) by (unfold v2; clear; destruct v1, n; vunf; ring).
  assert (V2N : dot v2 n = 0) by (unfold v2; clear; destruct v1, n; vunf; ring).
  assert (PV : forall x, plane_value 3 h x = dot (to_vec3 x) n + h 3%nat).
  { intros x. unfold plane_value. rewrite sumn3. unfold n, to_vec3. vunf. ring. }
  assert (ON : forall u v, on_plane 3 plane (comb o (vec_of3 v1) (vec_of3 v2) u v)).
  { intros u v. apply SAME. apply SAME in O. unfold on_plane in *. rewrite PV in *.
    replace (dot (to_vec3 (comb o (vec_of3 v1) (vec_of3 v2) u v)) n) with (dot (to_vec3 o) n + u * dot v1 n + v * dot v2 n).
    - rewrite VN, V2N. lra.
    - clear. destruct v1, v2, n. unfold comb, to_vec3, vec_of3. vunf. ring. }
  split; [|split; [exact ON|]].
  - intros u. rewrite slice_value by reflexivity. apply value_ext; [apply meq_refl|].
    intros i I. unfold slice_point, comb. cbn [length]. rewrite sumn2. simpl. ring.
  - intros x X. set (w := vsub (to_vec3 x) (to_vec3 o)).
    assert (WN : dot w n = 0).
    { apply SAME in X, O. unfold on_plane in X, O. rewrite PV in X, O. unfold w.
      replace (dot (vsub (to_vec3 x) (to_vec3 o)) n) with (dot (to_vec3 x) n - dot (to_vec3 o) n); [lra|].
      clear. destruct n. unfold to_vec3. vunf. ring. }
    exists (dot w v1 / dot v1 v1, dot w v2 / dot v1 v1). split.
    + cbn [fst snd]. pose proof (plane_basis n v1 w NN VN WN) as B. fold v2 in B.
      assert (COMP : forall (f : vec3 -> R) (g : vecn -> R),
         dot v1 v1 * f w = dot w v1 * f v1 + dot w v2 * f v2 -> f w = dot w v1 / dot v1 v1 * f v1 + dot w v2 / dot v1 v1 * f v2).
      { intros f _ Hf. apply Rmult_eq_reg_l with (dot v1 v1); [|lra]. rewrite Hf. field. lra. }
      intros i I. unfold comb.
      destruct i as [|[|[|i]]]; [| | |lia].
      * assert (Q : vx w = dot w v1 / dot v1 v1 * vx v1 + dot w v2 / dot v1 v1 * vx v2) by (apply COMP; [exact (fun _ => 0)|exact (f_equal vx B)]).
        assert (W : vx w = x 0%nat - o 0%nat) by reflexivity. rewrite W in Q. cbn [vec_of3]. lra.
      * assert (Q : vy w = dot w v1 / dot v1 v1 * vy v1 + dot w v2 / dot v1 v1 * vy v2) by (apply COMP; [exact (fun _ => 0)|exact (f_equal vy B)]).
        assert (W : vy w = x 1%nat - o 1%nat) by reflexivity. rewrite W in Q. cbn [vec_of3]. lra.
      * assert (Q : vz w = dot w v1 / dot v1 v1 * vz v1 + dot w v2 / dot v1 v1 * vz v2) by (apply COMP; [exact (fun _ => 0)|exact (f_equal vz B)]).
        assert (W : vz w = x 2%nat - o 2%nat) by reflexivity. rewrite W in Q. cbn [vec_of3]. lra.
    + intros [u v] E. cbn [fst snd] in E.
      assert (W : w = vadd (vscale u v1) (vscale v v2)).
      { pose proof (E 0%nat ltac:(lia)) as E0. pose proof (E 1%nat ltac:(lia)) as E1. pose proof (E 2%nat ltac:(lia)) as E2.
        unfold comb, vec_of3 in E0, E1, E2. unfold w, to_vec3. apply vec3_eq; vunf; lra. }
      assert (D1 : dot w v1 = u * dot v1 v1).
      { rewrite W. replace (dot (vadd (vscale u v1) (vscale v v2)) v1) with (u * dot v1 v1 + v * dot v2 v1); [rewrite V12; ring|].
        clear. destruct v1, v2. vunf. ring. }
      assert (D2 : dot w v2 = v * dot v1 v1).
      { rewrite W. replace (dot (vadd (vscale u v1) (vscale v v2)) v2) with (u * dot v2 v1 + v * dot v2 v2); [rewrite V12, V22; ring|].
        clear. destruct v1, v2. vunf. ring. }
      rewrite D1, D2. f_equal; field; lra.
Qed.
Example C65_ex : ~ veq 3 (vec_of3 (V3 1 2 2)) zero /\ ~ veq 2 (vec_of3 (V3 1 2 2)) zero.
Proof. split; intros H; specialize (H 0%nat ltac:(lia)); unfold zero in H; simpl in H; lra. Qed.

(** * C103 two dimensions: the code's axis is the mirrored normal *)
Theorem C103_plane_slice : forall C plane, ~ veq 2 plane zero ->
  exists con tr pt a, slice 2 C plane None = Ok (con, tr, pt) /\ on_plane 2 plane pt /\
  (forall u, value 1 con u = value 2 C (fun i => pt i + u 0%nat * a i)) /\
  ((forall u, on_plane 2 plane (fun i => pt i + u * a i)) <-> plane 0%nat = 0 \/ plane 1%nat = 0) /\
  (plane 0%nat <> 0 -> plane 1%nat <> 0 -> forall u, on_plane 2 plane (fun i => pt i + u * a i) -> u = 0).
Proof.
  intros C plane NZ. destruct (C69_offset 2 plane NZ) as (h & o & Eh & Eo & U & O & SAME & _).
  assert (HP : h = (fun i => plane i / normn 2 plane) /\ normn 2 plane <> 0).
  { revert Eh. unfold hessian_normal. destruct (Req_EM_T (normn 2 plane) 0); [discriminate|]. intros E. injection E as <-. auto. }
  set (a := fun i => match i with O => h 1%nat | _ => h 0%nat end).
  exists (transform 2 C (slice_matrix 2 [a] o)), (trn (slice_matrix 2 [a] o)), o, a.
  split; [unfold slice, plane_normal_of; rewrite Eh, Eo; reflexivity|]. split; auto.
  assert (L : forall u, plane_value 2 plane (fun i => o i + u * a i) = u * (2 * (h 0%nat * plane 1%nat))).
  { intros u. unfold on_plane, plane_value in *. rewrite sumn2 in *. destruct HP as [-> NP]. unfold a.
    replace (u * (2 * (plane 0%nat / normn 2 plane * plane 1%nat))) with
      (u * (plane 0%nat * (plane 1%nat / normn 2 plane) + plane 1%nat * (plane 0%nat / normn 2 plane))) by (field; auto).
    lra. }
  assert (HZ : h 0%nat = 0 <-> plane 0%nat = 0).
  { destruct HP as [-> NP]. split; intros E.
    - apply (f_equal (fun r => r * normn 2 plane)) in E. unfold Rdiv in E. rewrite Rmult_assoc, Rinv_l in E by auto. lra.
    - rewrite E. unfold Rdiv; ring. }
  split; [|split; [split|]].
  - intros u. rewrite slice_value by reflexivity. apply value_ext; [apply meq_refl|].
    intros i I. unfold slice_point. simpl. ring.
  - intros A. specialize (A 1). unfold on_plane in A. rewrite L in A.
    destruct (Rmult_integral (h 0%nat) (plane 1%nat)); [lra| |]; auto. left. now apply HZ.
  - intros A u. unfold on_plane. rewrite L. destruct A as [A|A]; [apply HZ in A|]; rewrite A; ring.
  - intros A B u E. unfold on_plane in E. rewrite L in E.
    assert (h 0%nat <> 0) by (rewrite HZ; auto).
    destruct (Rmult_integral _ _ E) as [Z|Z]; auto. exfalso. apply Rmult_integral in Z. destruct Z as [Z|Z]; [lra|].
    apply Rmult_integral in Z. tauto.
Qed.

(** * C66 projection *)
(** the line from p to the viewpoint w meets the quadric doubly at p *)
Definition tangent_at (n : nat) (C : matn) (p w : vecn) : Prop :=
  exists k, forall t, value n C (towards p w t) = k * (t * t).
Theorem C66_tangent : forall n C w p, symmetric (S n) C -> value n C p = 0 ->
  (on_plane n (polar_plane n C w) p <-> tangent_at n C p w).
Proof.
  intros n C w p SY P. unfold on_plane, tangent_at. rewrite polar_value.
  set (q := bil (S n) C (augment n p) (augment n w)).
  assert (V : forall t, value n C (towards p w t) = 2 * (t * (1 - t)) * q + t * t * value n C w).
  { intros t. rewrite value_towards by auto. rewrite P. unfold q. ring. }
  split.
  - intros Z. exists (value n C w). intros t. rewrite V, Z. ring.
  - intros [k Z]. pose proof (Z 1) as Z1. pose proof (Z 2) as Z2. rewrite V in Z1, Z2. lra.
Qed.
Theorem C66_projection : forall C viewpoint, symmetric 4 C ->
  let w := match viewpoint with Some v => v | None => zero end in
  ~ veq 3 (polar_plane 3 C w) zero ->
  exists con tr pt a b, projection 3 C viewpoint None = Ok (con, tr, pt) /\
  forall p, value 3 C p = 0 /\ tangent_at 3 C p w <->
    exists u, veq 3 p (comb pt a b (u 0%nat) (u 1%nat)) /\ value 2 con u = 0.
Proof.
  intros C viewpoint SY w NZ. destruct (C65_default C (polar_plane 3 C w) NZ) as (con & tr & pt & a & b & E & V & ON & ALL).
  exists con, tr, pt, a, b. split; [unfold projection; destruct viewpoint; exact E|].
  intros p. split.
  - intros [P T]. apply C66_tangent in T; auto. destruct (ALL p T) as ([u v] & X & _). cbn [fst snd] in X.
    exists (fun i => match i with O => u | _ => v end). split; auto. rewrite V.
    rewrite <- (value_ext 3 C C p _ (meq_refl _ _ C) X). exact P.
  - intros (u & X & P). rewrite V in P. rewrite <- (value_ext 3 C C p _ (meq_refl _ _ C) X) in P. split; auto.
    apply C66_tangent; auto. specialize (ON (u 0%nat) (u 1%nat)). unfold on_plane, plane_value in *. rewrite sumn3 in *.
    rewrite (X 0%nat), (X 1%nat), (X 2%nat) by lia. exact ON.
Qed.
Lemma ell5_symmetric : symmetric 4 ell5.
Proof.
  intros i j I J. unfold ell5, translate, transform, solve_mat, mulm, trn, ell0, mat_of, idn, vec_of3.
  destruct i as [|[|[|[|i]]]]; try lia; destruct j as [|[|[|[|j]]]]; try lia; simpl; ring.
Qed.
Example C66_ex : symmetric 4 ell5 /\ ~ veq 3 (polar_plane 3 ell5 zero) zero.
Proof.
  split; [apply ell5_symmetric|]. intros H. specialize (H 0%nat ltac:(lia)). revert H.
  unfold zero, polar_plane, mulv, augment, ell5, translate, transform, solve_mat, mulm, trn, ell0, mat_of, idn, vec_of3. simpl. lra.
Qed.

(** * C70, C71 classification *)
Theorem C70_elliptical : forall n C, positive_definite n C -> is_elliptical n C /\ ~ is_hyperbolic n C /\ ~ is_parabolic n C.
Proof. intros n C H. pose proof (pd_det n C H). unfold is_elliptical, is_hyperbolic, is_parabolic. repeat split; lra. Qed.
Example C70_ex : positive_definite 3 ell0.
Proof.
  intros x NZ. unfold ell0, mat_of. simpl.
  assert (N : x 0%nat <> 0 \/ x 1%nat <> 0 \/ x 2%nat <> 0).
  { destruct (Req_EM_T (x 0%nat) 0), (Req_EM_T (x 1%nat) 0), (Req_EM_T (x 2%nat) 0); auto.
    exfalso. apply NZ. intros i I. destruct i as [|[|[|i]]]; auto; lia. }
  assert (S0 : forall y, y <> 0 -> 0 < y * y) by (intros; nra).
  destruct N as [N|[N|N]]; apply S0 in N; nra.
Qed.

(** numbers of negative entries among the first n *)
Fixpoint negatives (n : nat) (d : nat -> R) : nat :=
  match n with O => O | S k => (negatives k d + if Rlt_dec (d k) 0 then 1 else 0)%nat end.
Lemma prodn_sign : forall n d,
  ((forall i, (i < n)%nat -> d i <> 0) -> if Nat.even (negatives n d) then 0 < prodn n d else prodn n d < 0) /\
  (forall i, (i < n)%nat -> d i = 0 -> prodn n d = 0).
Proof.
  induction n; intros d; split; intros.
  - simpl. lra. - lia.
  - destruct (IHn d) as [P _]. specialize (P ltac:(intros; apply H; lia)). pose proof (H n ltac:(lia)) as Dn.
    cbn [negatives prodn]. rewrite Nat.even_add. destruct (Rlt_dec (d n) 0).
    + destruct (Nat.even (negatives n d)); simpl; nra.
    + assert (0 < d n) by lra. destruct (Nat.even (negatives n d)); simpl; nra.
  - cbn [prodn]. destruct (Nat.eq_dec i n) as [->|h]; [rewrite H0; ring|].
    destruct (IHn d) as [_ Z]. rewrite (Z i) by (auto; lia). ring.
Qed.
Theorem C71_parity : forall n C, (forall i j, (i < n)%nat -> (j < n)%nat -> i <> j -> C i j = 0) ->
  let d := fun i => C i i in
  (is_elliptical n C <-> (forall i, (i < n)%nat -> d i <> 0) /\ Nat.Even (negatives n d)) /\
  (is_hyperbolic n C <-> (forall i, (i < n)%nat -> d i <> 0) /\ Nat.Odd (negatives n d)) /\
  (is_parabolic n C <-> exists i, (i < n)%nat /\ d i = 0).
Proof.
  intros n C D d. unfold is_elliptical, is_hyperbolic, is_parabolic. rewrite (det_diag n C D). fold d.
  change (prodn n (fun i => C i i)) with (prodn n d). destruct (prodn_sign n d) as [P Z].
  assert (DEC : (forall i, (i < n)%nat -> d i <> 0) \/ exists i, (i < n)%nat /\ d i = 0).
  { clear. induction n; [left; intros; lia|]. destruct IHn as [A|(i & I & E)]; [|right; exists i; split; auto; lia].
    destruct (Req_EM_T (d n) 0); [right; exists n; split; auto|]. left. intros i I.
    destruct (Nat.eq_dec i n) as [->|]; auto. apply A. lia. }
  destruct DEC as [A|(i & I & E)].
  - specialize (P A). rewrite <- Nat.even_spec, <- Nat.odd_spec. unfold Nat.odd.
    assert (~ exists i, (i < n)%nat /\ d i = 0) by (intros (i & I & E); exact (A i I E)).
    destruct (Nat.even (negatives n d)); simpl; intuition (try discriminate; try lra).
  - rewrite (Z i I E). split; [|split]; split; intros H; try lra; try (exfalso; exact (proj1 H i I E)).
    exists i; auto.
Qed.
(** the two-sheeted hyperboloid z^2 - x^2 - y^2 = 1 is reported as elliptical *)
Example C71_two_sheets : is_elliptical 3 (from_axes 3 (vec_of3 (V3 (-1) (-1) 1))) /\
  ~ positive_definite 3 (from_axes 3 (vec_of3 (V3 (-1) (-1) 1))).
Proof.
  split.
  - apply C71_parity.
    + intros i j I J N. unfold from_axes. destruct (Nat.eqb_spec i j); [contradiction|reflexivity].
    + split.
      * intros i I. unfold from_axes. rewrite Nat.eqb_refl. destruct (Nat.ltb_spec i 3); [|lia].
        destruct i as [|[|[|i]]]; simpl; lra.
      * unfold from_axes; simpl. destruct (Rlt_dec (-1) 0); [|lra]. destruct (Rlt_dec 1 0); [lra|]. exists 1%nat. reflexivity.
  - intros H. assert (N : ~ veq 3 (vec_of3 (V3 1 0 0)) (fun _ => 0)).
    { intros X. specialize (X 0%nat ltac:(lia)). simpl in X. lra. }
    specialize (H _ N). unfold from_axes in H. simpl in H. lra.
Qed.
(** in the plane, is_elliptical is definiteness of the quadratic part *)
Theorem C71_planar : forall C, symmetric 2 C ->
  (is_elliptical 2 C <-> positive_definite 2 C \/ positive_definite 2 (fun i j => - C i j)).
Proof.
  intros C SY. pose proof (SY 0%nat 1%nat ltac:(lia) ltac:(lia)) as S1. unfold trn in S1.
  set (a := C 0%nat 0%nat). set (b := C 0%nat 1%nat) in *. set (c := C 1%nat 1%nat).
  assert (D : det 2 C = a * c - b * b).
  { simpl. unfold minor; simpl. fold a b c. rewrite <- S1. ring. }
  unfold is_elliptical. rewrite D. split.
  - intros H. assert (A : a <> 0) by nra.
    assert (K : forall x : vecn, ~ veq 2 x (fun _ => 0) -> 0 < a * (a * x 0%nat * x 0%nat + 2 * b * x 0%nat * x 1%nat + c * x 1%nat * x 1%nat)).
    { intros x NZ. destruct (Req_EM_T (x 1%nat) 0) as [h|h].
      - rewrite h. assert (x 0%nat <> 0). { intros h0. apply NZ. intros i I. destruct i as [|[|i]]; auto; lia. }
        assert (0 < (a * x 0%nat) * (a * x 0%nat)) by (assert (a * x 0%nat <> 0) by (apply Rmult_integral_contrapositive; auto); nra). nra.
      - assert (0 < x 1%nat * x 1%nat) by nra.
        replace (a * (a * x 0%nat * x 0%nat + 2 * b * x 0%nat * x 1%nat + c * x 1%nat * x 1%nat)) with
          ((a * x 0%nat + b * x 1%nat) * (a * x 0%nat + b * x 1%nat) + (a * c - b * b) * (x 1%nat * x 1%nat)) by ring.
        assert (0 < (a * c - b * b) * (x 1%nat * x 1%nat)) by (apply Rmult_lt_0_compat; lra).
        pose proof (Rle_0_sqr (a * x 0%nat + b * x 1%nat)) as SQ. unfold Rsqr in SQ. lra. }
    assert (Q : forall x : vecn, sumn 2 (fun i => sumn 2 (fun j => C i j * x i * x j)) = a * x 0%nat * x 0%nat + 2 * b * x 0%nat * x 1%nat + c * x 1%nat * x 1%nat).
    { intros x. simpl. fold a b c. rewrite <- S1. ring. }
    assert (Q' : forall x : vecn, sumn 2 (fun i => sumn 2 (fun j => - C i j * x i * x j)) = - (a * x 0%nat * x 0%nat + 2 * b * x 0%nat * x 1%nat + c * x 1%nat * x 1%nat)).
    { intros x. simpl. fold a b c. rewrite <- S1. ring. }
    destruct (Rlt_dec a 0); [right|left]; intros x NZ; specialize (K x NZ); [rewrite Q'|rewrite Q];
      set (q := a * x 0%nat * x 0%nat + 2 * b * x 0%nat * x 1%nat + c * x 1%nat * x 1%nat) in *; nra.
  - intros [H|H]; apply pd_det in H.
    + lra.
    + assert (D' : det 2 (fun i j => - C i j) = a * c - b * b).
      { simpl. unfold minor; simpl. fold a b c. rewrite <- S1. ring. }
      lra.
Qed.
Example C71_planar_ex : symmetric 2 (from_axes 2 (vec_of3 (V3 1 4 0))).
Proof. intros i j _ _. unfold from_axes, trn. rewrite Nat.eqb_sym. destruct (Nat.eqb_spec j i); now subst. Qed.

(** * C72 semiaxes *)
Lemma existsb_seq : forall n (f : nat -> bool), existsb f (seq 0 n) = false <-> forall i, (i < n)%nat -> f i = false.
Proof.
  intros n f. split; intros H.
  - intros i I. destruct (f i) eqn:E; auto. rewrite <- H. symmetry. apply existsb_exists. exists i. split; auto. apply in_seq. lia.
  - destruct (existsb f (seq 0 n)) eqn:E; auto. apply existsb_exists in E. destruct E as (i & I & F). apply in_seq in I.
    rewrite H in F by lia. discriminate.
Qed.
Lemma from_semiaxes_ok : forall n a, (forall i, (i < n)%nat -> 0 < a i) ->
  from_semiaxes n a = Some (fun i j => if (i =? j)%nat then (if (i <? n)%nat then 1 / (a i * a i) else -1) else 0).
Proof.
  intros n a P. unfold from_semiaxes.
  rewrite (proj2 (existsb_seq n (fun i => if Req_EM_T (a i) 0 then true else false))); auto.
  intros i I. destruct (Req_EM_T (a i) 0); auto. specialize (P i I). lra.
Qed.
Lemma value_semiaxes : forall n a C p, (forall i, (i < n)%nat -> 0 < a i) -> from_semiaxes n a = Some C ->
  value n C p = sumn n (fun i => (p i / a i) * (p i / a i)) - 1.
Proof.
  intros n a C p P E. rewrite (from_semiaxes_ok n a P) in E.
  set (C0 := fun i j : nat => if (i =? j)%nat then (if (i <? n)%nat then 1 / (a i * a i) else -1) else 0) in E.
  assert (EC : C = C0) by congruence. subst C.
  assert (OFF : forall i j, i <> j -> C0 i j = 0).
  { intros i j N. unfold C0. destruct (Nat.eqb_spec i j); [contradiction|auto]. }
  assert (ON : forall i, (i < n)%nat -> C0 i i = 1 / (a i * a i)).
  { intros i I. unfold C0. rewrite Nat.eqb_refl. destruct (Nat.ltb_spec i n); [auto|lia]. }
  assert (LAST : C0 n n = -1) by (unfold C0; now rewrite Nat.eqb_refl, Nat.ltb_irrefl).
  unfold value. rewrite LAST. rewrite (sumn_0 n (fun i => (C0 i n + C0 n i) * p i)).
  2:{ intros i I. rewrite !OFF by lia. ring. }
  rewrite (sumn_ext n (fun i => sumn n (fun j => C0 i j * p i * p j)) (fun i => (p i / a i) * (p i / a i))); [ring|].
  intros i I. rewrite (sumn_ext n _ (fun j => (if (j =? i)%nat then 1 else 0) * (C0 i j * p i * p j))).
  - rewrite sumn_delta by auto. rewrite ON by auto. specialize (P i I). field. lra.
  - intros j J. destruct (Nat.eqb_spec j i); [ring|]. rewrite OFF by auto. ring.
Qed.
Theorem C72_squares : forall n a, (forall i, (i < n)%nat -> 0 < a i) ->
  exists C s, from_semiaxes n a = Some C /\ semiaxes n C = Ok s /\
  (forall p, contains n C p false <-> sumn n (fun i => (p i / a i) * (p i / a i)) <= 1) /\
  (forall i, (i < n)%nat -> s i = a i * a i) /\
  (veq n s a <-> veq n a (fun _ => 1)).
Proof.
  intros n a P. rewrite (from_semiaxes_ok n a P).
  exists (fun i j => if (i =? j)%nat then (if (i <? n)%nat then 1 / (a i * a i) else -1) else 0). unfold semiaxes.
  match goal with |- context[existsb ?f (seq 0 n)] => assert (E : existsb f (seq 0 n) = false) end.
  { apply existsb_seq. intros i I. cbv beta. rewrite Nat.eqb_refl. destruct (Nat.ltb_spec i n); [|lia].
    destruct (Req_EM_T (1 / (a i * a i)) 0) as [h|]; auto. specialize (P i I).
    assert (0 < 1 / (a i * a i)) by (apply Rdiv_lt_0_compat; nra). lra. }
  cbv zeta. rewrite E. eexists. split; [reflexivity|]. split; [reflexivity|].
  assert (SQ : forall i, (i < n)%nat -> / Rabs (if (i =? i)%nat then if (i <? n)%nat then 1 / (a i * a i) else -1 else 0) = a i * a i).
  { intros i I. rewrite Nat.eqb_refl. destruct (Nat.ltb_spec i n); [|lia]. specialize (P i I).
    assert (0 < 1 / (a i * a i)) by (apply Rdiv_lt_0_compat; nra).
    rewrite Rabs_pos_eq by lra. field. lra. }
  split; [|split; [exact SQ|]].
  - intros p. unfold contains. rewrite solve_value.
    rewrite (value_semiaxes n a _ p P (from_semiaxes_ok n a P)). split; intros; lra.
  - split; intros H i I; specialize (H i I); cbv beta in *; specialize (P i I); [rewrite (SQ i I) in H; nra|].
    rewrite (SQ i I), H. ring.
Qed.
(** The other constructor, from_axes, takes the coefficients themselves: positive
    coefficients are the inverse squares of the semi-axes. *)
Lemma value_axes : forall n a p, value n (from_axes n a) p = sumn n (fun i => a i * (p i * p i)) - 1.
Proof.
  intros n a p. set (C0 := from_axes n a).
  assert (OFF : forall i j, i <> j -> C0 i j = 0).
  { intros i j N. unfold C0, from_axes. destruct (Nat.eqb_spec i j); [contradiction|auto]. }
  assert (ON : forall i, (i < n)%nat -> C0 i i = a i).
  { intros i I. unfold C0, from_axes. rewrite Nat.eqb_refl. destruct (Nat.ltb_spec i n); [auto|lia]. }
  assert (LAST : C0 n n = -1) by (unfold C0, from_axes; now rewrite Nat.eqb_refl, Nat.ltb_irrefl).
  unfold value. rewrite LAST. rewrite (sumn_0 n (fun i => (C0 i n + C0 n i) * p i)).
  2:{ intros i I. rewrite !OFF by lia. ring. }
  rewrite (sumn_ext n (fun i => sumn n (fun j => C0 i j * p i * p j)) (fun i => a i * (p i * p i))); [ring|].
  intros i I. rewrite (sumn_ext n _ (fun j => (if (j =? i)%nat then 1 else 0) * (C0 i j * p i * p j))).
  - rewrite sumn_delta by auto. rewrite ON by auto. ring.
  - intros j J. destruct (Nat.eqb_spec j i); [ring|]. rewrite OFF by auto. ring.
Qed.
Theorem C72_axes : forall n a,
  (forall p, contains n (from_axes n a) p false <-> sumn n (fun i => a i * (p i * p i)) <= 1) /\
  ((forall i, (i < n)%nat -> 0 < a i) -> exists s, semiaxes n (from_axes n a) = Ok s /\
     forall i, (i < n)%nat -> s i = 1 / a i).
Proof.
  intros n a. split.
  - intros p. unfold contains. rewrite solve_value, value_axes. split; intros; lra.
  - intros P. unfold semiaxes.
    match goal with |- context[existsb ?f (seq 0 n)] => assert (E : existsb f (seq 0 n) = false) end.
    { apply existsb_seq. intros i I. unfold from_axes. rewrite Nat.eqb_refl. destruct (Nat.ltb_spec i n); [|lia].
      destruct (Req_EM_T (a i) 0) as [h|]; auto. specialize (P i I). lra. }
    cbv zeta. rewrite E. eexists. split; [reflexivity|]. intros i I. specialize (P i I).
    unfold from_axes. cbv beta. rewrite Nat.eqb_refl. destruct (Nat.ltb_spec i n); [|lia].
    rewrite Rabs_pos_eq by lra. field. lra.
Qed.
Example C72_ex : forall i, (i < 3)%nat -> 0 < vec_of3 (V3 2 1 3) i.
Proof. intros i I. destruct i as [|[|[|i]]]; simpl; try lra. Qed.

(** * C73 axis vectors *)
Section Axes.
  Variables (svd : svdn_fn) (n : nat) (a : vecn) (C : matn).
  Hypothesis P : forall i, (i < n)%nat -> 0 < a i.
  Hypothesis HC : from_semiaxes n a = Some C.
  Hypothesis HS : let '(U, s, V) := svd n C in is_svdn n C U s V.
  Let CE : C = fun i j => if (i =? j)%nat then (if (i <? n)%nat then 1 / (a i * a i) else -1) else 0.
  Proof. rewrite (from_semiaxes_ok n a P) in HC. now injection HC. Qed.
  Lemma C_diag : forall i j, i <> j -> C i j = 0.
  Proof. intros i j N. rewrite CE. destruct (Nat.eqb_spec i j); [contradiction|auto]. Qed.
  Lemma C_ii : forall i, (i < n)%nat -> C i i = 1 / (a i * a i) /\ 0 < C i i.
  Proof.
    intros i I. rewrite CE. rewrite Nat.eqb_refl. destruct (Nat.ltb_spec i n); [|lia]. split; auto.
    specialize (P i I). apply Rdiv_lt_0_compat; nra.
  Qed.
  Lemma total_diff : total (S n) C - total n C = -1.
  Proof.
    unfold total. cbn [sumn].
    rewrite (sumn_ext n (fun i => sumn n (fun j => C i j) + C i n) (fun i => sumn n (fun j => C i j))).
    - rewrite (sumn_0 n (fun j => C n j)) by (intros; apply C_diag; lia).
      rewrite CE. rewrite Nat.eqb_refl, Nat.ltb_irrefl. ring.
    - intros i I. rewrite (C_diag i n) by lia. ring.
  Qed.
  Lemma major_axes_ok : major_axes svd n C = Ok (fun k j => sqrt (snd (fst (svd n C)) j) * snd (svd n C) k j).
  Proof.
    unfold major_axes. destruct (svd n C) as [[U s] V]. rewrite total_diff. cbn [fst snd].
    rewrite (proj2 (existsb_seq n (fun j => if Rlt_dec (s j * - -1) 0 then true else false))).
    - f_equal. apply FunctionalExtensionality.functional_extensionality. intros k.
      apply FunctionalExtensionality.functional_extensionality. intros j. f_equal. f_equal. ring.
    - intros i I. destruct HS as (_ & _ & S0 & _). specialize (S0 i I). destruct (Rlt_dec (s i * - -1) 0); auto. lra.
  Qed.
  Lemma inv_sq_lt : forall x y, 0 < x -> 0 < y -> 1 / (x * x) <= 1 / (y * y) -> y <= x.
  Proof.
    intros x y X Y H. apply Rnot_lt_le. intros L.
    assert (1 / (y * y) < 1 / (x * x)); [|lra]. unfold Rdiv. rewrite !Rmult_1_l.
    apply Rinv_lt_contravar; [repeat apply Rmult_lt_0_compat; auto|nra].
  Qed.
  (** index of the coordinate axis of row k *)
  Definition which (V : matn) (k : nat) : nat :=
    match find_pivot n (fun i _ => V k i) with inleft (exist _ p _) => p | inright _ => O end.
  Hypothesis DIST : forall i j, (i < n)%nat -> (j < n)%nat -> a i = a j -> i = j.
  Lemma which_spec : forall k, (k < n)%nat -> let '(U, s, V) := svd n C in
    let p := which V k in (p < n)%nat /\ V k p * V k p = 1 /\ (forall j, (j < n)%nat -> j <> p -> V k j = 0) /\ s k = 1 / (a p * a p).
  Proof.
    intros k K. destruct (svd n C) as [[U s] V] eqn:SV. pose proof HS as H. rewrite SV in H || idtac.
    pose proof (svd_row_unit n C U s V k H K) as RU. unfold which.
    destruct (find_pivot n (fun i _ => V k i)) as [(p & L & N)|Z].
    - cbv zeta. assert (SP : forall j, (j < n)%nat -> V k j <> 0 -> s k = 1 / (a j * a j)).
      { intros j J NJ. destruct (svd_diag n C U s V k j H) as [E|E]; auto; [intros; apply C_diag; auto|contradiction|].
        rewrite <- E. destruct (C_ii j J) as [E1 E2]. rewrite Rabs_pos_eq by lra. exact E1. }
      assert (Z : forall j, (j < n)%nat -> j <> p -> V k j = 0).
      { intros j J NE. destruct (Req_EM_T (V k j) 0) as [e|e]; auto. exfalso. apply NE. apply DIST; auto.
        pose proof (SP j J e) as E1. rewrite (SP p L N) in E1. pose proof (P j J). pose proof (P p L).
        apply Rle_antisym; apply inv_sq_lt; auto; lra. }
      repeat split; auto. rewrite (sumn_ext n _ (fun j => (if (j =? p)%nat then 1 else 0) * (V k j * V k j))) in RU.
      + rewrite sumn_delta in RU; auto.
      + intros j J. destruct (Nat.eqb_spec j p); [ring|]. rewrite Z by auto. ring.
    - exfalso. rewrite sumn_0 in RU; [lra|]. intros i I. rewrite Z by auto. ring.
  Qed.
  Lemma which_inj : forall k l, (k < n)%nat -> (l < n)%nat -> which (snd (svd n C)) k = which (snd (svd n C)) l -> k = l.
  Proof.
    intros k l K L E. pose proof (which_spec k K) as A. pose proof (which_spec l L) as B. pose proof HS as H.
    destruct (svd n C) as [[U s] V]. cbn [snd] in E. destruct A as (A0 & A1 & A2 & _), B as (B0 & B1 & B2 & _). rewrite <- E in *.
    destruct (Nat.eq_dec k l) as [e|e]; auto. exfalso. destruct H as (_ & (O & _) & _).
    pose proof (O k l K L) as OV. unfold mulm, trn, idn in OV. destruct (Nat.eqb_spec k l); [contradiction|].
    set (p := which V k) in *.
    rewrite (sumn_ext n _ (fun j => (if (j =? p)%nat then 1 else 0) * (V k j * V l j))) in OV.
    - rewrite sumn_delta in OV by auto. nra.
    - intros j J. destruct (Nat.eqb_spec j p); [ring|]. rewrite (A2 j) by auto. ring.
  Qed.
  Lemma which_sorted : forall k l, (k <= l)%nat -> (l < n)%nat -> a (which (snd (svd n C)) k) <= a (which (snd (svd n C)) l).
  Proof.
    intros k l K L. pose proof (which_spec k ltac:(lia)) as A. pose proof (which_spec l L) as B. pose proof HS as H.
    destruct (svd n C) as [[U s] V]. cbn [snd]. destruct A as (A0 & _ & _ & A3), B as (B0 & _ & _ & B3).
    destruct H as (_ & _ & _ & D & _). specialize (D k l ltac:(lia)). rewrite A3, B3 in D.
    apply inv_sq_lt; auto.
  Qed.
End Axes.

Lemma mono_id : forall n (f : nat -> nat), (forall k, (k < n)%nat -> (f k < n)%nat) ->
  (forall k l, (k < l)%nat -> (l < n)%nat -> (f k < f l)%nat) -> forall k, (k < n)%nat -> f k = k.
Proof.
  intros n f B M.
  assert (LO : forall k, (k < n)%nat -> (k <= f k)%nat).
  { induction k; intros K; [lia|]. specialize (IHk ltac:(lia)). pose proof (M k (S k) ltac:(lia) K). lia. }
  assert (HI : forall d k, (k + d < n)%nat -> (f k + d <= f (k + d))%nat).
  { induction d; intros k K; [rewrite !Nat.add_0_r; lia|]. specialize (IHd k ltac:(lia)).
    pose proof (M (k + d)%nat (k + S d)%nat ltac:(lia) K). lia. }
  intros k K. specialize (LO k K). specialize (HI (n - 1 - k)%nat k ltac:(lia)). pose proof (B (k + (n - 1 - k))%nat ltac:(lia)). lia.
Qed.

(** row k is along one coordinate axis p, but its length is that belonging to the
    p-th row: [sqrt(s*scalar)*V] scales columns, not rows *)
Theorem C73_rows : forall svd n a C, (forall i, (i < n)%nat -> 0 < a i) ->
  (forall i j, (i < n)%nat -> (j < n)%nat -> a i = a j -> i = j) ->
  from_semiaxes n a = Some C -> (let '(U, s, V) := svd n C in is_svdn n C U s V) ->
  exists M f, major_axes svd n C = Ok M /\
  (forall k, (k < n)%nat -> (f k < n)%nat) /\ (forall k l, (k < l)%nat -> (l < n)%nat -> a (f k) < a (f l)) /\
  forall k, (k < n)%nat -> (forall j, (j < n)%nat -> j <> f k -> M k j = 0) /\ Rabs (M k (f k)) = / a (f (f k)).
Proof.
  intros svd n a C P D E HS.
  exists (fun k j => sqrt (snd (fst (svd n C)) j) * snd (svd n C) k j), (which n (snd (svd n C))).
  split; [now apply (major_axes_ok svd n a C P E HS)|].
  assert (W := which_spec svd n a C P E HS D).
  assert (SO := which_sorted svd n a C P E HS D). assert (IJ := which_inj svd n a C P E HS D).
  assert (B : forall k, (k < n)%nat -> (which n (snd (svd n C)) k < n)%nat).
  { intros k K. specialize (W k K). destruct (svd n C) as [[U s] V]. apply W. }
  split; [exact B|]. split.
  - intros k l K L. specialize (SO k l ltac:(lia) L). destruct SO as [SO|SO]; auto. exfalso.
    apply D in SO; auto; [|apply B; lia]. apply IJ in SO; lia.
  - intros k K. pose proof (W k K) as A. pose proof (W (which n (snd (svd n C)) k) (B k K)) as A'.
    destruct (svd n C) as [[U s] V]. cbn [fst snd] in *. destruct A as (A0 & A1 & A2 & _), A' as (B0 & _ & _ & B3). split.
    + intros j J N. rewrite A2 by auto. ring.
    + rewrite B3. set (q := which n V (which n V k)) in *. pose proof (P q B0) as Q.
      rewrite Rabs_mult. replace (1 / (a q * a q)) with (Rsqr (/ a q)) by (unfold Rsqr; field; lra).
      rewrite sqrt_Rsqr by (left; now apply Rinv_0_lt_compat).
      rewrite (Rabs_pos_eq (/ a q)) by (left; now apply Rinv_0_lt_compat).
      assert (AB : Rabs (V k (which n V k)) = 1).
      { assert (Rabs (V k (which n V k)) * Rabs (V k (which n V k)) = 1) by (rewrite <- Rabs_mult, A1; apply Rabs_R1).
        pose proof (Rabs_pos (V k (which n V k))). nra. }
      rewrite AB. ring.
Qed.
(** semi-axes in increasing order: row k is the k-th coordinate axis with length
    1/a_k, and its end lies on the ellipsoid exactly when a_k = 1 *)
Theorem C73_sorted : forall svd n a C, (forall i, (i < n)%nat -> 0 < a i) ->
  (forall i j, (i < j)%nat -> (j < n)%nat -> a i < a j) ->
  from_semiaxes n a = Some C -> (let '(U, s, V) := svd n C in is_svdn n C U s V) ->
  exists M, major_axes svd n C = Ok M /\
  forall k, (k < n)%nat -> (forall j, (j < n)%nat -> j <> k -> M k j = 0) /\ Rabs (M k k) = / a k /\
    (value n C (M k) = 0 <-> a k = 1).
Proof.
  intros svd n a C P D E HS.
  assert (DI : forall i j, (i < n)%nat -> (j < n)%nat -> a i = a j -> i = j).
  { intros i j I J X. destruct (Nat.lt_trichotomy i j) as [h|[h|h]]; auto;
    [pose proof (D i j h J)|pose proof (D j i h I)]; lra. }
  destruct (C73_rows svd n a C P DI E HS) as (M & f & EM & B & MO & R). exists M. split; auto.
  assert (ID : forall k, (k < n)%nat -> f k = k).
  { apply mono_id; auto. intros k l K L. specialize (MO k l K L).
    destruct (Nat.lt_trichotomy (f k) (f l)) as [h|[h|h]]; auto.
    - rewrite h in MO. lra.
    - pose proof (D (f l) (f k) h (B k ltac:(lia))). lra. }
  intros k K. destruct (R k K) as [R1 R2]. rewrite !ID in R2 by (rewrite ?ID; auto). rewrite (ID k K) in R1.
  split; auto. split; auto.
  destruct (C72_squares n a P) as (C' & _ & E' & _). rewrite E in E'. injection E' as <-.
  assert (V : value n C (M k) = (M k k * M k k) / (a k * a k) - 1).
  { rewrite (value_semiaxes n a C (M k) P E). f_equal.
    rewrite (sumn_ext n _ (fun i => (if (i =? k)%nat then 1 else 0) * (M k i / a i * (M k i / a i)))).
    - rewrite sumn_delta by auto. specialize (P k K). field. lra.
    - intros i I. destruct (Nat.eqb_spec i k); [ring|]. rewrite (R1 i) by auto. unfold Rdiv. ring. }
  rewrite V. specialize (P k K).
  assert (MM : M k k * M k k = / (a k * a k)).
  { replace (M k k * M k k) with (Rabs (M k k) * Rabs (M k k)).
    - rewrite R2. field. lra. - rewrite <- Rabs_mult. apply Rabs_pos_eq. apply Rle_0_sqr. }
  rewrite MM. split; intros H.
  - assert (X : 1 = a k * a k * (a k * a k)).
    { apply (f_equal (fun r => r * (a k * a k * (a k * a k)))) in H.
      replace ((/ (a k * a k) / (a k * a k) - 1) * (a k * a k * (a k * a k))) with (1 - a k * a k * (a k * a k)) in H by (field; lra). lra. }
    assert (Y : a k * a k = 1) by nra. nra.
  - rewrite H. field.
Qed.
(** in the plane: lengths 1/a_i for increasing semi-axes, exchanged for decreasing ones *)
Theorem C73_plane : forall svd a C, 0 < a 0%nat -> 0 < a 1%nat -> a 0%nat <> a 1%nat ->
  from_semiaxes 2 a = Some C -> (let '(U, s, V) := svd 2%nat C in is_svdn 2 C U s V) ->
  exists M, major_axes svd 2 C = Ok M /\
  forall i, (i < 2)%nat -> exists k, (k < 2)%nat /\ M k (1 - i)%nat = 0 /\
    (a 0%nat < a 1%nat -> Rabs (M k i) = / a i) /\ (a 1%nat < a 0%nat -> Rabs (M k i) = / a (1 - i)%nat).
Proof.
  intros svd a C P0 P1 D E HS.
  destruct (C73_rows svd 2 a C) as (M & f & EM & B & MO & R); auto.
  - intros i I. destruct i as [|[|i]]; auto; lia.
  - intros i j I J X. destruct i as [|[|i]], j as [|[|j]]; auto; try lia; congruence.
  - exists M. split; auto. intros i I.
    pose proof (B 0%nat ltac:(lia)) as B0. pose proof (B 1%nat ltac:(lia)) as B1. specialize (MO 0%nat 1%nat ltac:(lia) ltac:(lia)).
    assert (F : (f 0%nat = 0 /\ f 1%nat = 1 \/ f 0%nat = 1 /\ f 1%nat = 0)%nat).
    { destruct (f 0%nat) as [|[|x]], (f 1%nat) as [|[|y]]; auto; try lia; lra. }
    exists (f i). split; [apply B; auto|]. destruct (R (f i) (B i I)) as [R1 R2].
    destruct F as [[F0 F1]|[F0 F1]]; rewrite F0, F1 in MO; destruct i as [|[|i]]; try lia;
      repeat (rewrite ?F0, ?F1 in R1; rewrite ?F0, ?F1 in R2; rewrite ?F0, ?F1);
      (split; [apply R1; lia|split; intros; [try lra|try lra]; exact R2]).
Qed.
(** in space, semi-axes whose order is a cycle get the wrong lengths *)
Theorem C73_cyclic_refuted : exists a C, from_semiaxes 3 a = Some C /\ (forall i, (i < 3)%nat -> 0 < a i) /\
  forall svd, (let '(U, s, V) := svd 3%nat C in is_svdn 3 C U s V) -> exists M, major_axes svd 3 C = Ok M /\
  M 0%nat 0%nat = 0 /\ M 0%nat 2%nat = 0 /\ Rabs (M 0%nat 1%nat) = 1/2 /\ / a 1%nat = 1.
Proof.
  exists (vec_of3 (V3 3 1 2)).
  assert (P : forall i, (i < 3)%nat -> 0 < vec_of3 (V3 3 1 2) i) by (intros i I; destruct i as [|[|[|i]]]; simpl; lra).
  eexists. split; [apply from_semiaxes_ok; exact P|]. split; auto. intros svd HS.
  match type of HS with context[svd 3%nat ?c] => set (C := c) in * end.
  destruct (C73_rows svd 3 (vec_of3 (V3 3 1 2)) C) as (M & f & EM & B & MO & R); auto.
  - intros i j I J. destruct i as [|[|[|i]]], j as [|[|[|j]]]; simpl; intros; auto; try lia; lra.
  - apply from_semiaxes_ok; exact P.
  - exists M. split; auto.
    pose proof (B 0%nat ltac:(lia)) as B0. pose proof (B 1%nat ltac:(lia)) as B1. pose proof (B 2%nat ltac:(lia)) as B2.
    pose proof (MO 0%nat 1%nat ltac:(lia) ltac:(lia)) as M01. pose proof (MO 1%nat 2%nat ltac:(lia) ltac:(lia)) as M12.
    assert (F : (f 0%nat = 1 /\ f 1%nat = 2)%nat).
    { destruct (f 0%nat) as [|[|[|x]]], (f 1%nat) as [|[|[|y]]], (f 2%nat) as [|[|[|z]]]; simpl in M01, M12; try lia; try lra; auto. }
    destruct F as [F0 F1]. destruct (R 0%nat ltac:(lia)) as [R1 R2]. rewrite F0 in R1, R2. rewrite F1 in R2. simpl in R2.
    repeat split; [apply R1; lia|apply R1; lia|rewrite R2; lra|simpl; lra].
Qed.
(** an SVD of the diagonal matrix of the ellipsoid 1, 2, 3 *)
Definition svd123 : svdn_fn := fun _ C => (idn, fun i => C i i, idn).
Example C73_ex : exists C, from_semiaxes 3 (vec_of3 (V3 1 2 3)) = Some C /\
  (let '(U, s, V) := svd123 3%nat C in is_svdn 3 C U s V).
Proof.
  eexists. split; [apply from_semiaxes_ok; intros i I; destruct i as [|[|[|i]]]; simpl; lra|].
  unfold svd123, is_svdn, orthogonal, is_inverse, mulm, trn, idn. repeat split.
  - intros i j I J. destruct i as [|[|[|i]]], j as [|[|[|j]]]; try lia; simpl; ring.
  - intros i j I J. destruct i as [|[|[|i]]], j as [|[|[|j]]]; try lia; simpl; ring.
  - intros i j I J. destruct i as [|[|[|i]]], j as [|[|[|j]]]; try lia; simpl; ring.
  - intros i j I J. destruct i as [|[|[|i]]], j as [|[|[|j]]]; try lia; simpl; ring.
  - intros i I. destruct i as [|[|[|i]]]; simpl; try lra; lia.
  - intros i j [I J]. destruct i as [|[|[|i]]], j as [|[|[|j]]]; simpl; try lra; lia.
  - intros i j I J. destruct i as [|[|[|i]]], j as [|[|[|j]]]; try lia; simpl; ring.
Qed.

Print Assumptions C65_value.
Print Assumptions C65_default.
Print Assumptions C103_plane_slice.
Print Assumptions C66_tangent.
Print Assumptions C66_projection.
Print Assumptions C70_elliptical.
Print Assumptions C71_parity.
Print Assumptions C71_planar.
Print Assumptions C72_squares.
Print Assumptions C72_axes.
Print Assumptions C73_rows.
Print Assumptions C73_sorted.
Print Assumptions C73_plane.
Print Assumptions C73_cyclic_refuted.
