(** Properties C60-C69: quadrics, polar planes, slices. *)
From Coq Require Import Reals Lra Lia List Arith Bool Psatz.
From Verif Require Import RVec Trig LNum SpecConics MConics LConics.
Import ListNotations.
Open Scope R_scope.

Definition zero : vecn := fun _ => 0.
(** ellipsoid x^2/4 + y^2 + z^2/9 = 1 with centre (5, 0, 0), and its pieces *)
Definition mat_of (rows : list (list R)) : matn := fun i j => nth j (nth i rows []) 0.
Definition ell0 : matn := mat_of [[1/4; 0; 0; 0]; [0; 1; 0; 0]; [0; 0; 1/9; 0]; [0; 0; 0; -1]].
Definition ell0_inv : matn := mat_of [[4; 0; 0]; [0; 1; 0]; [0; 0; 9]].
Definition ell5 : matn := translate 3 ell0 (vec_of3 (V3 5 0 0)).

(** * C60 translation *)
Theorem C60_translate : forall n C v p,
  (contains n (translate n C v) p false <-> value n C (vminus p v) <= 0) /\
  (contains n (translate n C v) p true <-> Rabs (value n C (vminus p v)) <= / 100000000) /\
  (contains n C p false <-> value n C p <= 0).
Proof. intros. unfold contains. rewrite !solve_value, !translate_value. tauto. Qed.

Theorem C60_center : forall inv n C v c, numpy_inv inv -> center inv n C = Ok c ->
  exists c', center inv n (translate n C v) = Ok c' /\ veq n c' (vplus c v).
Proof.
  intros inv n C v c HI E. unfold center in *.
  pose proof (HI n C) as H1. pose proof (HI n (translate n C v)) as H2.
  destruct (inv n C) as [B|]; [|discriminate]. injection E as <-.
  pose proof (translate_quadratic n C v) as Q.
  destruct (inv n (translate n C v)) as [B'|].
  2:{ exfalso. apply H2. exists B. eapply inverse_ext; [apply meq_sym, Q | apply meq_refl | exact H1]. }
  eexists; split; [reflexivity|]. intros i I.
  assert (BE : meq n n B' B) by (apply (inverse_unique n (translate n C v) C); auto).
  assert (L : veq n (fun i => - translate n C v i n) (vplus (fun i => - C i n) (mulv n C v))).
  { intros k K. rewrite translate_linear by auto. unfold vplus, mulv. ring. }
  rewrite (mulv_ext n n B' B _ _ BE L i I).
  rewrite mulv_plus, (inverse_solve n B C v (inverse_sym _ _ _ H1)) by auto. reflexivity.
Qed.
Example C60_ex : contains 3 ell5 (vec_of3 (V3 6 0 1)) false /\ ~ contains 3 ell5 zero false.
Proof.
  unfold ell5. split.
  - apply (proj1 (C60_translate 3 ell0 _ _)). unfold value, vminus, ell0, mat_of, vec_of3; simpl. lra.
  - intros H. apply (proj1 (C60_translate 3 ell0 _ _)) in H. revert H. unfold value, vminus, ell0, mat_of, vec_of3, zero; simpl. lra.
Qed.

(** * C61 transformation *)
Theorem C61_transform : forall n m C T y, solve m (transform n C T) y = solve (S n) C (mulv m T y).
Proof. exact solve_transform. Qed.
Theorem C61_compose : forall n m k C T S', meq k k
  (transform m (transform n C T) S') (transform n C (mulm (S m) T S')).
Proof.
  intros n m k C T S' i j _ _. rewrite !transform_entries. unfold transform, solve_mat. rewrite bil_transform.
  apply bil_ext; [apply meq_refl | |]; intros q _; reflexivity.
Qed.
Theorem C61_identity : forall n C, meq (S n) (S n) (transform n C idn) C.
Proof.
  intros n C. unfold transform, solve_mat. eapply meq_trans; [apply mulm_id_r|].
  eapply meq_trans; [|apply mulm_id_l]. apply mulm_ext; [|apply meq_refl].
  intros i j _ _. unfold trn, idn. now rewrite Nat.eqb_sym.
Qed.
Example C61_ex : solve 3 (transform 2 (mat_of [[1;0;0];[0;2;0];[0;0;-1]])
   (mat_of [[3;5;0];[0;1;0];[0;0;1]])) (vec_of3 (V3 1 1 1)) = 65.
Proof. rewrite C61_transform. unfold solve, dotn, vmul_mat, mulv, mat_of, vec_of3; simpl. lra. Qed.

(** * C62 centre *)
Theorem C62_center : forall inv n C, numpy_inv inv -> symmetric (S n) C ->
  (invertible n C <-> exists c, center inv n C = Ok c) /\
  (forall c, center inv n C = Ok c ->
     (forall x, value n C (vplus c x) = value n C (vminus c x)) /\
     (forall c', (forall x, value n C (vplus c' x) = value n C (vminus c' x)) -> veq n c' c)).
Proof.
  intros inv n C HI SY. pose proof (HI n C) as H. unfold center. split.
  - destruct (inv n C) as [B|].
    + split; intros; [eexists; reflexivity | now exists B].
    + split; [tauto | intros [c X]; discriminate].
  - intros c E. destruct (inv n C) as [B|]; [|discriminate]. injection E as <-.
    set (c := mulv n B (fun i => - C i n)).
    assert (G : veq n (fun i => sumn n (fun j => C i j * c j) + C i n) (fun _ => 0)).
    { intros i I. pose proof (inverse_solve n C B (fun i => - C i n) H i I) as X. unfold mulv at 1 in X. fold c in X. lra. }
    assert (NEG : forall c0 x, value n C (vminus c0 x) = value n C c0
       - 2 * sumn n (fun i => x i * (sumn n (fun j => C i j * c0 j) + C i n)) + sumn n (fun i => sumn n (fun j => C i j * x i * x j))).
    { intros c0 x. rewrite (value_ext n C C (vminus c0 x) (vplus c0 (fun i => - x i))).
      - rewrite value_shift by auto.
        rewrite (sumn_ext n (fun i => - x i * (sumn n (fun j => C i j * c0 j) + C i n)) (fun i => - (x i * (sumn n (fun j => C i j * c0 j) + C i n)))) by (intros; ring).
        rewrite sumn_opp.
        rewrite (sumn_ext n (fun i => sumn n (fun j => C i j * - x i * - x j)) (fun i => sumn n (fun j => C i j * x i * x j))).
        + ring. + intros; apply sumn_ext; intros; ring.
      - apply meq_refl.
      - intros i _. unfold vminus, vplus. ring. }
    split.
    + intros x. rewrite NEG, value_shift by auto.
      rewrite (sumn_0 n (fun i => x i * (sumn n (fun j => C i j * c j) + C i n))); [ring|].
      intros i I. rewrite (G i I). ring.
    + intros c' R.
      (* the gradient vanishes at c' *)
      assert (G' : veq n (fun i => sumn n (fun j => C i j * c' j) + C i n) (fun _ => 0)).
      { set (g := fun i => sumn n (fun j => C i j * c' j) + C i n).
        specialize (R g). rewrite NEG, value_shift in R by auto. fold g in R.
        assert (Z : sumn n (fun i => g i * g i) = 0).
        { change (sumn n (fun i => g i * (sumn n (fun j => C i j * c' j) + C i n))) with (sumn n (fun i => g i * g i)) in R. lra. }
        intros i I. apply (sumn_sq_zero n g Z i I). }
      intros i I.
      assert (E' : veq n (mulv n C c') (fun i => - C i n)).
      { intros k K. specialize (G' k K). cbv beta in G'. unfold mulv. lra. }
      unfold c. rewrite <- (inverse_solve n B C c' (inverse_sym _ _ _ H) i I).
      apply (mulv_ext n n B B); auto. apply meq_refl.
Qed.
Lemma ell0_inverse : is_inverse 3 ell0 ell0_inv.
Proof.
  split; intros [|[|[|i]]] [|[|[|j]]] I J; try lia; unfold mulm, ell0, ell0_inv, mat_of, idn; simpl; lra.
Qed.
Example C62_ex : exists c, center inv_ref 3 ell5 = Ok c /\ veq 3 c (vec_of3 (V3 5 0 0)).
Proof.
  assert (S0 : symmetric 4 ell0).
  { intros [|[|[|[|i]]]] [|[|[|[|j]]]] I J; try lia; reflexivity. }
  destruct (C62_center inv_ref 3 ell0 inv_ref_ok S0) as [[X _] U].
  destruct X as [c E]; [exists ell0_inv; apply ell0_inverse|].
  destruct (C60_center inv_ref 3 ell0 (vec_of3 (V3 5 0 0)) c inv_ref_ok E) as (c' & E' & V).
  exists c'. split; auto.
  assert (Z : veq 3 zero c).
  { apply U; auto. intros x. unfold value, vplus, vminus, zero, ell0, mat_of; simpl. lra. }
  intros i I. rewrite V by auto. unfold vplus. rewrite <- Z by auto. unfold zero. ring.
Qed.

(** * C63 pole and polar plane *)
Theorem C63_pole_polar : forall inv n C v, numpy_inv inv -> invertible (S n) C ->
  exists p, pole_of inv n C (polar_plane n C v) = Ok p /\ veq n p v.
Proof.
  intros inv n C v HI [B0 HB]. unfold pole_of, polar_plane. pose proof (HI (S n) C) as H.
  destruct (inv (S n) C) as [B|]; [|exfalso; apply H; now exists B0].
  assert (X : veq (S n) (mulv (S n) B (mulv (S n) C (augment n v))) (augment n v))
    by (apply inverse_solve, inverse_sym; auto).
  assert (XN := X n (Nat.lt_succ_diag_r n)). rewrite augment_n in XN.
  destruct (Req_EM_T _ 0) as [h|h]; [lra|].
  eexists; split; [reflexivity|]. intros i I. cbv beta. rewrite XN, (X i) by lia. rewrite augment_lt by auto. field.
Qed.
Lemma polar_value : forall n C p q, plane_value n (polar_plane n C q) p = bil (S n) C (augment n p) (augment n q).
Proof.
  intros. rewrite bil_mulv. unfold plane_value, polar_plane, dotn. cbn [sumn]. rewrite augment_n. f_equal; [|ring].
  apply sumn_ext; intros. rewrite augment_lt by auto. ring.
Qed.
Theorem C63_reciprocal : forall n C p q, symmetric (S n) C ->
  (on_plane n (polar_plane n C q) p <-> on_plane n (polar_plane n C p) q) /\
  (on_plane n (polar_plane n C p) p <-> value n C p = 0).
Proof.
  intros n C p q SY. unfold on_plane. rewrite !polar_value. rewrite (bil_sym _ _ (augment n q)) by auto.
  rewrite bil_value. tauto.
Qed.
Lemma ell0_full : is_inverse 4 ell0 (mat_of [[4; 0; 0; 0]; [0; 1; 0; 0]; [0; 0; 9; 0]; [0; 0; 0; -1]]).
Proof. split; intros [|[|[|[|i]]]] [|[|[|[|j]]]] I J; try lia; unfold mulm, ell0, mat_of, idn; simpl; lra. Qed.
Example C63_ex : exists p, pole_of inv_ref 3 ell0 (polar_plane 3 ell0 (vec_of3 (V3 1 2 3))) = Ok p /\ p 2%nat = 3.
Proof.
  destruct (C63_pole_polar inv_ref 3 ell0 (vec_of3 (V3 1 2 3)) inv_ref_ok) as (p & E & V).
  - eexists. apply ell0_full. - exists p. split; auto. now rewrite V by lia.
Qed.

(** * C64 dual conic *)
(** homogeneous point x on the conic *)
Definition on_conic (k : nat) (C : matn) (x : vecn) : Prop := sumn k (fun i => sumn k (fun j => C i j * x i * x j)) = 0.
Theorem C64_tangent_planes : forall inv n C D, numpy_inv inv -> symmetric (S n) C -> dual inv n C = Ok D ->
  forall plane, on_conic (S n) D plane <-> exists x, on_conic (S n) C x /\ veq (S n) (mulv (S n) C x) plane.
Proof.
  intros inv n C D HI SY E plane. unfold dual in E. pose proof (HI (S n) C) as H.
  destruct (inv (S n) C) as [B|]; [|discriminate]. injection E as <-.
  change (bil (S n) B plane plane = 0 <-> exists x, bil (S n) C x x = 0 /\ veq (S n) (mulv (S n) C x) plane).
  assert (KEY : forall x y, veq (S n) (mulv (S n) C x) y -> bil (S n) B y y = bil (S n) C x x).
  { intros x y V. rewrite !bil_mulv.
    rewrite (dotn_ext (S n) y (mulv (S n) C x) (mulv (S n) B y) x).
    - rewrite dotn_comm. reflexivity.
    - intros i I. symmetry. auto.
    - intros i I. rewrite <- (inverse_solve (S n) B C x (inverse_sym _ _ _ H) i I).
      apply (mulv_ext (S n) (S n) B B); auto; [apply meq_refl|]. intros k K. symmetry; auto. }
  split.
  - intros Z. exists (mulv (S n) B plane). split; [|now apply inverse_solve].
    rewrite <- (KEY (mulv (S n) B plane) plane); auto. now apply inverse_solve.
  - intros (x & Z & V). now rewrite (KEY x plane).
Qed.
Theorem C64_involution : forall inv n C D, numpy_inv inv -> dual inv n C = Ok D ->
  exists C', dual inv n D = Ok C' /\ meq (S n) (S n) C' C.
Proof.
  intros inv n C D HI E. unfold dual in *. pose proof (HI (S n) C) as H. pose proof (HI (S n) D) as H'.
  destruct (inv (S n) C) as [B|]; [|discriminate]. injection E as <-.
  destruct (inv (S n) B) as [C'|].
  - exists C'. split; auto. apply (inverse_unique (S n) B B); auto. apply meq_refl. now apply inverse_sym.
  - exfalso. apply H'. exists C. now apply inverse_sym.
Qed.
(** dual of the transformed conic: transform the dual by the inverse transpose *)
Theorem C64_contravariant : forall inv n C D T Ti, numpy_inv inv -> dual inv n C = Ok D -> is_inverse (S n) T Ti ->
  exists D', dual inv n (transform n C T) = Ok D' /\ meq (S n) (S n) D' (transform n D (trn Ti)).
Proof.
  intros inv n C D T Ti HI E HT. unfold dual in *. pose proof (HI (S n) C) as H.
  destruct (inv (S n) C) as [B|]; [|discriminate]. injection E as <-.
  assert (IV : is_inverse (S n) (transform n C T) (transform n B (trn Ti))).
  { unfold transform, solve_mat. destruct H as [H1 H2], HT as [T1 T2].
    assert (AB : forall X Y Z W, meq (S n) (S n) (mulm (S n) Y Z) idn -> meq (S n) (S n)
       (mulm (S n) (mulm (S n) X Y) (mulm (S n) Z W)) (mulm (S n) X W)).
    { intros X Y Z W HYZ i j I J. rewrite <- mulm_assoc.
      apply (mulm_ext (S n) (S n) (S n)); auto; [apply meq_refl|]. intros a b A0 B0. rewrite mulm_assoc.
      rewrite (mulm_ext (S n) (S n) (S n) (mulm (S n) Y Z) idn W W); auto; [|apply meq_refl]. exact (mulm_id_l (S n) (S n) W a b A0 B0). }
    assert (TT : meq (S n) (S n) (mulm (S n) (trn T) (trn Ti)) idn).
    { intros i j I J. rewrite <- trn_mulm. unfold trn. rewrite T2 by auto. unfold idn. now rewrite Nat.eqb_sym. }
    assert (TT' : meq (S n) (S n) (mulm (S n) (trn Ti) (trn T)) idn).
    { intros i j I J. rewrite <- trn_mulm. unfold trn. rewrite T1 by auto. unfold idn. now rewrite Nat.eqb_sym. }
    split.
    - apply meq_trans with (mulm (S n) (mulm (S n) (mulm (S n) (trn T) C) T) (mulm (S n) Ti (mulm (S n) B (trn Ti)))).
      { apply mulm_ext; [apply meq_refl|]. intros i j I J. rewrite mulm_assoc. reflexivity. }
      eapply meq_trans; [apply AB; auto|]. eapply meq_trans; [apply AB; auto|]. auto.
    - apply meq_trans with (mulm (S n) (mulm (S n) (mulm (S n) Ti B) (trn Ti)) (mulm (S n) (trn T) (mulm (S n) C T))).
      { apply mulm_ext; [apply meq_refl|]. intros i j I J. rewrite mulm_assoc. reflexivity. }
      eapply meq_trans; [apply AB; auto|]. eapply meq_trans; [apply AB; auto|]. auto. }
  pose proof (HI (S n) (transform n C T)) as H'. destruct (inv (S n) (transform n C T)) as [D'|].
  - exists D'. split; auto. eapply inverse_unique; eauto. apply meq_refl.
  - exfalso. apply H'. eexists; eauto.
Qed.
Example C64_ex : exists D, dual inv_ref 3 ell0 = Ok D.
Proof.
  unfold dual. pose proof (inv_ref_ok 4%nat ell0) as H. destruct (inv_ref 4%nat ell0); [eauto|].
  exfalso. apply H. eexists. apply ell0_full.
Qed.

(** * C67, C68 perpendicular vectors *)
Theorem C67_perpendicular : forall n : vec3,
  (n <> vzero -> exists v, perpendicular3 n = Ok v /\ v <> vzero /\ dot v n = 0) /\
  (perpendicular3 n = Raise ValueError <-> n = vzero).
Proof.
  intros n.
  assert (Z : forall e, norm (cross n e) = 0 -> cross n e = vzero) by (intros; now apply norm_zero_iff).
  assert (A : n <> vzero -> exists v, perpendicular3 n = Ok v /\ v <> vzero /\ dot v n = 0).
  { intros NZ. unfold perpendicular3.
    destruct (Req_EM_T (norm (cross n ez)) 0) as [h1|h1].
    2:{ eexists; split; [reflexivity|]. split; [|apply dot_cross_l]. intros X. apply h1. now apply norm_zero_iff. }
    destruct (Req_EM_T (norm (cross n ey)) 0) as [h2|h2].
    2:{ eexists; split; [reflexivity|]. split; [|apply dot_cross_l]. intros X. apply h2. now apply norm_zero_iff. }
    exfalso. apply NZ. apply Z in h1, h2. destruct n as [x y z]. revert h1 h2. unfold ez, ey; vunf.
    intros E1 E2. injection E1; injection E2; intros. apply vec3_eq; simpl; lra. }
  split; auto. split.
  - intros E. destruct (Req_EM_T (norm n) 0) as [h|h]; [now apply norm_zero_iff|].
    destruct A as (v & E' & _); [|congruence]. intros X. apply h. now apply norm_zero_iff.
  - intros ->. unfold perpendicular3.
    assert (C : forall e, norm (cross vzero e) = 0).
    { intros e. apply norm_zero_iff. apply vec3_eq; vunf; ring. }
    rewrite !C. destruct (Req_EM_T 0 0); [auto|lra].
Qed.
Theorem C68_only_on_axes : forall x y : R,
  (let '(a, b) := perpendicular2 (x, y) in a * x + b * y = 0) <-> x = 0 \/ y = 0.
Proof. intros x y. simpl. split; intros H; [|destruct H; subst; ring]. apply Rmult_integral. lra. Qed.
(** the same of the function called by slices, whose vectors have any length *)
Theorem C67_vector : forall n : vecn,
  (forall v, perpendicular_vector 3 n = Ok v ->
     sumn 3 (fun i => v i * n i) = 0 /\ exists i, (i < 3)%nat /\ v i <> 0) /\
  (perpendicular_vector 3 n = Raise ValueError <-> forall i, (i < 3)%nat -> n i = 0) /\
  (forall dim, dim <> 2%nat -> dim <> 3%nat -> perpendicular_vector dim n = Raise ValueError).
Proof.
  intros n. destruct (C67_perpendicular (to_vec3 n)) as (A & B). split; [|split].
  - intros v E. unfold perpendicular_vector in E.
    destruct (perpendicular3 (to_vec3 n)) as [w|e|] eqn:P; try discriminate. injection E as <-.
    assert (NZ : to_vec3 n <> vzero). { intros Z. apply B in Z. congruence. }
    destruct (A NZ) as (w' & W & N & D). assert (w' = w) by congruence. subst w'.
    split. { unfold sumn. simpl. unfold to_vec3 in D. revert D. vunf. intros D. lra. }
    destruct (Req_EM_T (vx w) 0) as [h0|h0]; [|exists 0%nat; split; [lia|exact h0]].
    destruct (Req_EM_T (vy w) 0) as [h1|h1]; [|exists 1%nat; split; [lia|exact h1]].
    exists 2%nat. split; [lia|]. intros h2. apply N. apply vec3_eq; auto.
  - unfold perpendicular_vector. split.
    + intros E. assert (Z : to_vec3 n = vzero).
      { apply B. destruct (perpendicular3 (to_vec3 n)); try discriminate; congruence. }
      unfold to_vec3, vzero in Z. injection Z as Z0 Z1 Z2. intros i I. destruct i as [|[|[|i]]]; auto; lia.
    + intros Z. assert (E : to_vec3 n = vzero) by (unfold to_vec3; rewrite !Z by lia; reflexivity). apply B in E. now rewrite E.
  - intros [|[|[|[|d]]]] h2 h3; try reflexivity; congruence.
Qed.
Theorem C68_vector : forall n : vecn, exists v, perpendicular_vector 2 n = Ok v /\
  (sumn 2 (fun i => v i * n i) = 0 <-> n 0%nat = 0 \/ n 1%nat = 0).
Proof.
  intros n. eexists. split; [reflexivity|]. unfold sumn. simpl.
  split; intros H; [apply Rmult_integral; lra|destruct H as [-> | ->]; ring].
Qed.
Example C67_ex : perpendicular3 (V3 0 0 2) = Ok (cross (V3 0 0 2) ey).
Proof.
  unfold perpendicular3. assert (X : cross (V3 0 0 2) ez = vzero) by (apply vec3_eq; unfold ez; vunf; ring).
  rewrite X. destruct (Req_EM_T (norm vzero) 0) as [h|h]; [|exfalso; apply h; now apply norm_zero_iff].
  destruct (Req_EM_T (norm (cross (V3 0 0 2) ey)) 0) as [h'|h']; auto.
  apply norm_zero_iff in h'. revert h'. unfold ey; vunf. intros E. injection E. intros. lra.
Qed.

(** * C69 offset *)
Lemma normn_pos : forall n p, normn n p <> 0 -> 0 < normn n p.
Proof. intros n p H. pose proof (sqrt_pos (sumn n (fun i => p i * p i))). unfold normn in *. lra. Qed.
Lemma normn_sq : forall n p, normn n p * normn n p = sumn n (fun i => p i * p i).
Proof. intros. unfold normn. apply sqrt_sqrt. apply sumn_nonneg; intros; nra. Qed.
Theorem C69_offset : forall n plane, ~ veq n plane (fun _ => 0) -> exists h o,
  hessian_normal n plane = Some h /\ plane_offset n plane = Some o /\
  sumn n (fun i => h i * h i) = 1 /\ on_plane n plane o /\
  (forall x, on_plane n plane x <-> on_plane n h x) /\
  (forall x, on_plane n plane x -> sumn n (fun i => o i * o i) <= sumn n (fun i => x i * x i)) /\
  (forall x, on_plane n plane x -> sumn n (fun i => o i * o i) = sumn n (fun i => x i * x i) -> veq n x o).
Proof.
  intros n plane NZ.
  assert (N : normn n plane <> 0).
  { intros h. apply NZ. pose proof (normn_sq n plane) as S. rewrite h in S.
    intros i I. apply (sumn_sq_zero n plane); auto. lra. }
  pose proof (normn_pos _ _ N) as P. unfold plane_offset, hessian_normal.
  destruct (Req_EM_T (normn n plane) 0); [contradiction|].
  set (h := fun i => plane i / normn n plane). exists h, (fun i => - (h i * h n)). cbn [option_map].
  assert (U : sumn n (fun i => h i * h i) = 1).
  { unfold h. rewrite (sumn_ext n _ (fun i => / (normn n plane * normn n plane) * (plane i * plane i))).
    - rewrite sumn_scal, <- normn_sq. field. auto. - intros. field. auto. }
  assert (SAME : forall x, on_plane n plane x <-> on_plane n h x).
  { intros x. assert (X : plane_value n h x = plane_value n plane x / normn n plane).
    { unfold plane_value, h. rewrite (sumn_ext n _ (fun i => / normn n plane * (plane i * x i))) by (intros; field; auto).
      rewrite sumn_scal. field. auto. }
    unfold on_plane. rewrite X. split; intros Z.
    - rewrite Z. unfold Rdiv; ring.
    - apply (f_equal (fun r => r * normn n plane)) in Z. unfold Rdiv in Z. rewrite Rmult_assoc, Rinv_l, Rmult_1_r in Z by auto. lra. }
  assert (O : on_plane n h (fun i => - (h i * h n))).
  { unfold on_plane, plane_value. rewrite (sumn_ext n _ (fun i => (- h n) * (h i * h i))) by (intros; ring).
    rewrite sumn_scal, U. ring. }
  assert (PY : forall x, on_plane n plane x ->
     sumn n (fun i => x i * x i) = sumn n (fun i => (- (h i * h n)) * (- (h i * h n))) +
     sumn n (fun i => (x i - - (h i * h n)) * (x i - - (h i * h n)))).
  { intros x X. apply SAME in X. unfold on_plane, plane_value in X.
    rewrite <- sumn_plus.
    rewrite (sumn_ext n (fun i => - (h i * h n) * - (h i * h n) + (x i - - (h i * h n)) * (x i - - (h i * h n)))
       (fun i => x i * x i + (2 * (h n * h n) * (h i * h i) + 2 * h n * (h i * x i)))) by (intros; ring).
    rewrite sumn_plus, sumn_plus, !sumn_scal, U. replace (sumn n (fun i => h i * x i)) with (- h n) by lra. ring. }
  repeat split; auto.
  - apply SAME; auto. - apply SAME. - apply SAME.
  - intros x X. rewrite (PY x X). cbv beta.
    assert (0 <= sumn n (fun i => (x i - - (h i * h n)) * (x i - - (h i * h n)))) by (apply sumn_nonneg; intros; apply Rle_0_sqr). lra.
  - intros x X EQ i I. rewrite (PY x X) in EQ. cbv beta in EQ.
    assert (Z : sumn n (fun i => (x i - - (h i * h n)) * (x i - - (h i * h n))) = 0) by lra.
    pose proof (sumn_sq_zero n (fun i => x i - - (h i * h n)) Z i I). cbv beta in H. lra.
Qed.
Example C69_ex : ~ veq 3 (vec_of3 (V3 1 2 2)) (fun _ => 0).
Proof. intros H. specialize (H 0%nat ltac:(lia)). simpl in H. lra. Qed.

Print Assumptions C60_translate.
Print Assumptions C60_center.
Print Assumptions C61_transform.
Print Assumptions C61_compose.
Print Assumptions C61_identity.
Print Assumptions C62_center.
Print Assumptions C63_pole_polar.
Print Assumptions C63_reciprocal.
Print Assumptions C64_tangent_planes.
Print Assumptions C64_involution.
Print Assumptions C64_contravariant.
Print Assumptions C67_perpendicular.
Print Assumptions C68_only_on_axes.
Print Assumptions C67_vector.
Print Assumptions C68_vector.
Print Assumptions C69_offset.
