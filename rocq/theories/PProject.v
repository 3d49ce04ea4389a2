(** C224: the constructions of the error hyperbola compared in the tests. *)
From Coq Require Import Reals Lra Lia List Arith Bool Psatz.
From Verif Require Import RVec Trig LNum SpecConics MConics LConics LSlice MHyper MAxes LAxes PHyper MFigures PFigures3 PConics2 PShadow MProject.
Import ListNotations.
Notation length := List.length.
Open Scope R_scope.

(** positions equal in size from both ends of the list *)
Definition mirrored (xs : list R) : Prop := forall i, (i < length xs)%nat -> Rabs (nth i xs 0) = Rabs (nth (length xs - 1 - i) xs 0).
(** the upper branch of y^2/b - x^2/a = 1 *)
Definition upper_branch (a b x y : R) : Prop := 0 < y /\ y * y / b - x * x / a = 1.

Lemma upper_unique : forall a b x y z, 0 < b -> upper_branch a b x y -> upper_branch a b x z -> y = z.
Proof.
  intros a b x y z B [Y EY] [Z EZ]. apply Rsqr_inj; try lra. unfold Rsqr.
  apply (Rmult_eq_reg_r (/ b)); [|apply Rinv_neq_0_compat; lra]. unfold Rdiv in *. lra.
Qed.
Lemma upper_abs : forall a b x w y z, 0 < a -> 0 < b -> upper_branch a b x y -> upper_branch a b w z -> (y = z <-> Rabs x = Rabs w).
Proof.
  intros a b x w y z A B [Y EY] [Z EZ]. assert (IA := Rinv_0_lt_compat _ A). assert (IB := Rinv_0_lt_compat _ B). unfold Rdiv in *. split.
  - intros <-. apply Rsqr_eq_abs_0. unfold Rsqr. apply (Rmult_eq_reg_r (/ a)); lra.
  - intros E. apply Rsqr_inj; try lra. unfold Rsqr. apply Rsqr_eq_asb_1 in E. unfold Rsqr in E. rewrite E in EY.
    apply (Rmult_eq_reg_r (/ b)); lra.
Qed.
Lemma simple_upper : forall a b x, 0 < a -> 0 < b -> upper_branch a b x (1 * sqrt b * sqrt (x * x / (a * 1) + 1 / 1)).
Proof.
  intros a b x A B. assert (P : 0 < x * x / (a * 1) + 1 / 1).
  { rewrite Rmult_1_r. apply Rplus_le_lt_0_compat; [|lra]. apply Rmult_le_pos; [nra|]. left. now apply Rinv_0_lt_compat. }
  split.
  - rewrite Rmult_1_l. apply Rmult_lt_0_compat; now apply sqrt_lt_R0.
  - assert (S : sqrt b * sqrt b = b) by (apply sqrt_sqrt; lra).
    assert (T : sqrt (x * x / (a * 1) + 1 / 1) * sqrt (x * x / (a * 1) + 1 / 1) = x * x / (a * 1) + 1 / 1) by (apply sqrt_sqrt; lra).
    set (s := sqrt b) in *. set (t := sqrt (x * x / (a * 1) + 1 / 1)) in *. clearbody s t.
    replace (1 * s * t * (1 * s * t)) with (s * s * (t * t)) by ring. rewrite S, T. field. lra.
Qed.
Lemma branch_upper : forall a b x, 0 < a -> 0 < b -> upper_branch a b x (sqrt b * cosh (arcsinh (x / sqrt a))).
Proof.
  intros a b x A B. destruct (branch_spec (sqrt a, sqrt b) x (sqrt_lt_R0 _ A) (sqrt_lt_R0 _ B)) as [P E]. unfold branch in *. cbn [fst snd] in *.
  rewrite !sqrt_sqrt in E by lra. now split.
Qed.
Lemma edges : forall inv h a hx xs, numpy_inv inv -> 0 < vx h -> 0 < vy h -> 0 < vz h -> a = ex /\ hx = vx h \/ a = ey /\ hx = vy h ->
  exists nom bottom, hyperbolic_errors inv (list_of h) xs None (Some [list_of a; list_of ez]) None false =
    Ok (nom, bottom, rev (map (fun x => (x, sqrt (vz h) * cosh (arcsinh (x / sqrt hx)))) xs)).
Proof.
  intros inv h a hx xs HI H0 H1 H2 CASE.
  assert (HX : 0 < hx) by (destruct CASE as [[_ ->]|[_ ->]]; auto).
  assert (Q0 : recip h (in_frame None a) = / hx).
  { destruct CASE as [[-> ->]|[-> ->]]; unfold recip, in_frame, ex, ey; vunf; field; repeat split; lra. }
  assert (Q1 : recip h (in_frame None ez) = / vz h) by (unfold recip, in_frame, ez; vunf; field; repeat split; lra).
  assert (I0 := Rinv_0_lt_compat _ HX). assert (I1 := Rinv_0_lt_compat _ H2).
  unfold hyperbolic_errors.
  assert (VA := view_axes_ok inv h None a ez HI ltac:(lra) ltac:(lra) ltac:(lra)). cbv zeta in VA. rewrite Q0, Q1 in VA.
  rewrite VA by lra. cbn [rbind].
  assert (AD : apparent_dip_correction (Some [list_of a; list_of ez]) = Ok ((1, 0), (0, 1))).
  { unfold apparent_dip_correction. unfold list_of at 1. change (list_of a) with ([vx a; vy a] ++ [vz a]).
    rewrite cos_angle_share. unfold horizontal_share. simpl length. rewrite sumn2. cbn [nth].
    assert (HH : vx a * vx a + vy a * vy a = 1 /\ vz a = 0) by (destruct CASE as [[-> _]|[-> _]]; unfold ex, ey; simpl; lra).
    destruct HH as [-> ->]. destruct (Req_EM_T 1 0); [lra|]. replace (1 / (1 + 0 * 0)) with 1 by field. rewrite sqrt_1.
    destruct (Rlt_dec (/ 1000000000000) (1 - 1 * 1)); [lra|reflexivity]. }
  rewrite AD. cbn [rbind]. rewrite !Rabs_pos_eq by lra. rewrite !Rinv_inv by lra. do 2 eexists. f_equal. f_equal.
  f_equal. apply map_ext. intros x. unfold vmul2, branch. cbn [fst snd]. f_equal; ring.
Qed.

(** the dual, its slice and the two computations of the curve *)
Lemma dual_value : forall inv h, numpy_inv inv -> vx h <> 0 -> vy h <> 0 -> vz h <> 0 ->
  exists D, dual inv 3 (from_axes 3 (vec_of3 h)) = Ok D /\ meq 4 4 D (from_axes 3 (vec_of3 (V3 (1 / vx h) (1 / vy h) (1 / vz h)))).
Proof.
  intros inv h HI H0 H1 H2. set (B := from_axes 3 (vec_of3 (V3 (1 / vx h) (1 / vy h) (1 / vz h)))).
  assert (IV : is_inverse 4 (from_axes 3 (vec_of3 h)) B).
  { split; intros i j I J; unfold mulm, B, from_axes, idn; cbn [sumn];
    (destruct i as [|[|[|[|i]]]]; [| | | |lia]); (destruct j as [|[|[|[|j]]]]; [| | | |lia]); cbn [Nat.eqb Nat.ltb Nat.leb vec_of3 vx vy vz]; field; auto. }
  pose proof (HI 4%nat (from_axes 3 (vec_of3 h))) as H. unfold dual. destruct (inv 4%nat (from_axes 3 (vec_of3 h))) as [D|]; [|exfalso; apply H; now exists B].
  exists D. split; auto. exact (inverse_unique 4 _ _ D B (meq_refl _ _ _) H IV).
Qed.
Lemma slice_across : forall D d0 d1 d2, meq 4 4 D (from_axes 3 (vec_of3 (V3 d0 d1 d2))) ->
  exists h tr pt, slice 3 D (fun i => match i with O => 1 | _ => 0 end) None = Ok (h, tr, pt) /\
  meq 3 3 h (from_axes 2 (fun i => match i with O => d1 | _ => d2 end)).
Proof.
  intros D d0 d1 d2 HD. set (pl := fun i : nat => match i with O => 1 | _ => 0 end).
  assert (NM : normn 3 pl = 1) by (unfold normn, pl; rewrite sumn3'; replace (1 * 1 + 0 * 0 + 0 * 0) with 1 by ring; apply sqrt_1).
  assert (EH : hessian_normal 3 pl = Some (fun i => pl i / 1)).
  { unfold hessian_normal. rewrite NM. destruct (Req_EM_T 1 0); [lra|reflexivity]. }
  unfold slice, plane_normal_of, plane_offset. rewrite EH. cbn [option_map]. set (o := fun i => - (pl i / 1 * (pl 3%nat / 1))).
  assert (O0 : forall i, o i = 0) by (intros i; unfold o, pl; cbv beta iota; unfold Rdiv; ring).
  unfold default_axes, perpendicular_vector. set (n := to_vec3 (fun i => pl i / 1)).
  assert (EN : n = V3 1 0 0) by (unfold n, to_vec3, pl; f_equal; field).
  assert (V1 : perpendicular3 n = Ok (V3 0 (-1) 0)).
  { assert (X : cross n ez = V3 0 (-1) 0) by (rewrite EN; vunf; f_equal; ring).
    unfold perpendicular3. rewrite X. destruct (Req_EM_T (norm (V3 0 (-1) 0)) 0) as [e|e]; auto.
    exfalso. apply norm_zero_iff in e. injection e. lra. }
  rewrite V1. cbn [rbind Nat.eqb length Nat.sub]. change (to_vec3 (vec_of3 (V3 0 (-1) 0))) with (V3 0 (-1) 0). fold n.
  assert (V2 : cross (V3 0 (-1) 0) n = V3 0 0 1) by (rewrite EN; vunf; f_equal; ring). rewrite V2.
  do 3 eexists. split; [reflexivity|]. intros i j I J. rewrite transform_entries. unfold bil. cbn [sumn].
  rewrite !HD by lia. unfold slice_matrix, from_axes.
  destruct i as [|[|[|i]]]; [| | |lia]; (destruct j as [|[|[|j]]]; [| | |lia]); cbn [Nat.eqb Nat.ltb Nat.leb Nat.sub nth app vec_of3 vx vy vz];
      rewrite ?O0; ring.
Qed.
Theorem C224_project : forall inv h xs, numpy_inv inv -> 0 < vx h -> 0 < vy h -> 0 < vz h ->
  exists p, project inv h xs = Ok p /\
  (forall i j, (i < 4)%nat -> (j < 4)%nat -> pr_dual p i j =
     if (i =? j)%nat then nth i [1 / vx h; 1 / vy h; 1 / vz h; -1] 0 else 0) /\
  0 < fst (pr_axes p) /\ 0 < snd (pr_axes p) /\
  fst (pr_axes p) * fst (pr_axes p) = vy h /\ snd (pr_axes p) * snd (pr_axes p) = vz h /\
  pr_y0 p = pr_y1 p /\ pr_y2 p = rev (pr_y0 p) /\ Forall2 (upper_branch (vy h) (vz h)) xs (pr_y0 p).
Proof.
  intros inv h xs HI H0 H1 H2. destruct (dual_value inv h HI ltac:(lra) ltac:(lra) ltac:(lra)) as (D & ED & MD).
  destruct (slice_across D _ _ _ MD) as (c & tr & pt & ES & MS). unfold project. rewrite ED. cbn [rbind]. rewrite ES. cbn [rbind].
  assert (C0 : c 0%nat 0%nat = / vy h) by (rewrite MS by lia; unfold from_axes; cbn [Nat.eqb Nat.ltb Nat.leb]; field; lra).
  assert (C1 : c 1%nat 1%nat = / vz h) by (rewrite MS by lia; unfold from_axes; cbn [Nat.eqb Nat.ltb Nat.leb]; field; lra).
  assert (I1 := Rinv_0_lt_compat _ H1). assert (I2 := Rinv_0_lt_compat _ H2).
  rewrite C0, C1, !Rabs_pos_eq by lra. unfold fdiv. destruct (Req_EM_T (/ vy h) 0) as [e|_]; [lra|]. destruct (Req_EM_T (/ vz h) 0) as [e|_]; [lra|].
  replace (1 / / vy h) with (vy h) by (field; lra). replace (1 / / vz h) with (vz h) by (field; lra).
  rewrite simple_value by lra.
  destruct (edges inv h ey (vy h) xs HI H0 H1 H2 ltac:(right; auto)) as (nom & bottom & EE). unfold list_of, ey, ez in EE. cbn [vx vy vz] in EE. rewrite EE.
  cbn [rbind]. eexists. split; [reflexivity|]. cbn [pr_dual pr_axes pr_y0 pr_y1 pr_y2 fst snd].
  split. { intros i j I J. rewrite MD by auto. unfold from_axes. destruct i as [|[|[|[|i]]]]; [| | | |lia]; destruct j as [|[|[|[|j]]]]; try lia; reflexivity. }
  split; [now apply sqrt_lt_R0|]. split; [now apply sqrt_lt_R0|]. split; [apply sqrt_sqrt; lra|]. split; [apply sqrt_sqrt; lra|].
  split. { apply map_ext. intros x. apply (upper_unique (vy h) (vz h) x); auto; [now apply branch_upper|now apply simple_upper]. }
  split. { rewrite map_rev, map_map. reflexivity. }
  clear EE. induction xs as [|x xs IH]; cbn [map]; constructor; auto. now apply branch_upper.
Qed.
Lemma mirror_list : forall (f : R -> R) xs, map f xs = rev (map f xs) <->
  (forall i, (i < length xs)%nat -> f (nth i xs 0) = f (nth (length xs - 1 - i) xs 0)).
Proof.
  intros f xs. assert (N : forall i, (i < length xs)%nat -> nth i (rev (map f xs)) (f 0) = f (nth (length xs - 1 - i) xs 0)).
  { intros i I. rewrite rev_nth by (rewrite map_length; auto). rewrite map_length, map_nth. f_equal. f_equal. lia. }
  split.
  - intros E i I. rewrite <- N by auto. rewrite <- E, map_nth. reflexivity.
  - intros E. apply (nth_ext _ _ (f 0) (f 0)); [now rewrite rev_length|]. intros i I. rewrite map_length in I. rewrite N, map_nth by auto. auto.
Qed.
(** the curve of the slice equals the upper edge of the band, which runs backwards, exactly
    for positions that are equal in size from both ends *)
Theorem C224_compare : forall inv h xs p, numpy_inv inv -> 0 < vx h -> 0 < vy h -> 0 < vz h -> project inv h xs = Ok p ->
  (pr_y0 p = pr_y2 p <-> mirrored xs).
Proof.
  intros inv h xs p HI H0 H1 H2 E. destruct (C224_project inv h xs HI H0 H1 H2) as (q & E' & _ & _ & _ & _ & _ & _ & R & F).
  rewrite E in E'. injection E' as <-. rewrite R.
  set (f := fun x => sqrt (vz h) * cosh (arcsinh (x / sqrt (vy h)))).
  assert (Y : pr_y0 p = map f xs).
  { clear -F H1 H2. remember (pr_y0 p) as ys. clear Heqys. induction F as [|x y xs ys U F IH]; cbn [map]; [reflexivity|]. f_equal; auto.
    apply (upper_unique (vy h) (vz h) x); auto. now apply branch_upper. }
  rewrite Y, mirror_list. unfold mirrored. split; intros G i I.
  - apply (upper_abs (vy h) (vz h) _ _ (f (nth i xs 0)) (f (nth (length xs - 1 - i) xs 0))); auto; now apply branch_upper.
  - apply (upper_abs (vy h) (vz h) (nth i xs 0) (nth (length xs - 1 - i) xs 0)); auto; now apply branch_upper.
Qed.
(** evenly spaced positions about zero, as in the tests, are *)
Theorem C224_linspace : forall l m, (2 <= m)%nat -> mirrored (linspace (- l) l m).
Proof.
  intros l m M i I. unfold linspace in *. rewrite map_length, seq_length in *.
  assert (V : forall j, (j < m)%nat -> nth j (map (fun k => - l + INR k * ((l - - l) / INR (m - 1))) (seq 0 m)) 0 = - l + INR j * ((l - - l) / INR (m - 1))).
  { intros j J. set (f := fun k => - l + INR k * ((l - - l) / INR (m - 1))). rewrite (nth_indep _ 0 (f 0%nat)) by (rewrite map_length, seq_length; auto).
    rewrite (map_nth f), seq_nth by auto. reflexivity. }
  rewrite !V by lia. assert (K : INR (m - 1) <> 0) by (apply not_0_INR; lia).
  rewrite <- (Rabs_Ropp (- l + INR (m - 1 - i) * _)). f_equal. rewrite (minus_INR (m - 1) i) by lia. field. exact K.
Qed.
(** the direction of least variation *)
Theorem C224_minimum : forall inv h xs, numpy_inv inv -> 0 < vx h -> 0 < vy h -> 0 < vz h ->
  exists ys, minimum inv h xs = Ok (ys, rev ys) /\ Forall2 (upper_branch (vx h) (vz h)) xs ys /\
  (ys = rev ys <-> mirrored xs).
Proof.
  intros inv h xs HI H0 H1 H2. unfold minimum. rewrite simple_value by lra.
  destruct (edges inv h ex (vx h) xs HI H0 H1 H2 ltac:(left; auto)) as (nom & bottom & EE). unfold list_of, ex, ez in EE. cbn [vx vy vz] in EE. rewrite EE.
  cbn [rbind]. set (f := fun x => 1 * sqrt (vz h) * sqrt (x * x / (vx h * 1) + 1 / 1)).
  exists (map f xs). split; [|split].
  - do 2 f_equal. rewrite map_rev, map_map. f_equal. apply map_ext. intros x. cbn [snd].
    apply (upper_unique (vx h) (vz h) x); auto; [now apply branch_upper|now apply simple_upper].
  - clear EE. induction xs as [|x xs IH]; cbn [map]; constructor; auto. now apply simple_upper.
  - rewrite mirror_list. unfold mirrored. split; intros G i I.
    + apply (upper_abs (vx h) (vz h) _ _ (f (nth i xs 0)) (f (nth (length xs - 1 - i) xs 0))); auto; now apply simple_upper.
    + apply (upper_abs (vx h) (vz h) (nth i xs 0) (nth (length xs - 1 - i) xs 0)); auto; now apply simple_upper.
Qed.
(** the axes seen in a horizontal direction [t]: both computations give the half axes of
    the slice, for every direction *)
Theorem C224_dual : forall inv h t, numpy_inv inv -> 0 < vx h -> 0 < vy h -> 0 < vz h ->
  exists a b, dual_conic inv h t = Ok ((a, b), (a, b)) /\ 0 < a /\ 0 < b /\
  a * a * (cos t * cos t * vy h + sin t * sin t * vx h) = vx h * vy h /\ b * b = vz h.
Proof.
  intros inv h t HI H0 H1 H2. set (k := cos t * cos t * vy h + sin t * sin t * vx h).
  assert (CS : cos t * cos t + sin t * sin t = 1) by (pose proof (sin2_cos2 t) as X; unfold Rsqr in X; lra).
  assert (K : 0 < k).
  { unfold k. pose proof (Rle_0_sqr (cos t)). pose proof (Rle_0_sqr (sin t)). unfold Rsqr in *.
    destruct (Req_EM_T (cos t) 0) as [e|e]; [assert (0 < sin t * sin t) by (rewrite e in CS; lra)|assert (0 < cos t * cos t) by nra]; nra. }
  assert (HH : 0 < vx h * vy h) by now apply Rmult_lt_0_compat.
  set (q := k / (vx h * vy h)). assert (Q : 0 < q) by now apply Rdiv_lt_0_compat.
  assert (Q0 : recip h (in_frame None (V3 (cos t) (sin t) 0)) = q) by (unfold recip, in_frame, q, k; vunf; field; repeat split; lra).
  assert (Q1 : recip h (in_frame None ez) = / vz h) by (unfold recip, in_frame, ez; vunf; field; repeat split; lra).
  assert (I2 := Rinv_0_lt_compat _ H2). assert (IQ := Rinv_0_lt_compat _ Q).
  assert (VA := view_axes_ok inv h None (V3 (cos t) (sin t) 0) ez HI ltac:(lra) ltac:(lra) ltac:(lra)). cbv zeta in VA. rewrite Q0, Q1 in VA.
  specialize (VA ltac:(lra) ltac:(lra)). rewrite !Rabs_pos_eq, Rinv_inv in VA by lra. unfold list_of, ez in VA. cbn [vx vy vz] in VA.
  unfold dual_conic. rewrite VA. cbn [rbind].
  assert (FD : forall x, 0 < x -> obind (fdiv 1 x) fsqrt = Some (sqrt (/ x))).
  { intros x X. unfold fdiv. destruct (Req_EM_T x 0); [lra|]. cbn [obind]. unfold fsqrt. pose proof (Rinv_0_lt_compat _ X).
    replace (1 / x) with (/ x) by (field; lra). destruct (Rlt_dec (/ x) 0); [lra|reflexivity]. }
  rewrite !FD by auto.
  assert (S : forall x c, 0 < x -> sqrt (/ x) * c * (sqrt (/ x) * c) = c * c / x).
  { intros x c X. pose proof (Rinv_0_lt_compat _ X). replace (sqrt (/ x) * c * (sqrt (/ x) * c)) with (sqrt (/ x) * sqrt (/ x) * (c * c)) by ring.
    rewrite sqrt_sqrt by lra. field. lra. }
  rewrite !S by auto. replace (cos t * cos t / vx h + sin t * sin t / vy h) with q by (unfold q, k; field; lra).
  assert (SQ : 0 < sqrt q) by now apply sqrt_lt_R0. assert (SI : 0 < sqrt (/ vz h)) by now apply sqrt_lt_R0.
  rewrite Rabs_pos_eq by lra. unfold fdiv. destruct (Req_EM_T (sqrt q) 0); [lra|]. destruct (Req_EM_T (sqrt (/ vz h)) 0); [lra|].
  exists (sqrt (/ q)), (sqrt (vz h)). split.
  - do 2 f_equal. f_equal; [rewrite sqrt_inv; field; lra|]. rewrite sqrt_inv. pose proof (sqrt_lt_R0 _ H2). field. lra.
  - split; [now apply sqrt_lt_R0|]. split; [now apply sqrt_lt_R0|]. rewrite !sqrt_sqrt by lra. split; [|reflexivity].
    fold k. unfold q. field. split; lra.
Qed.
(** positions to one side of the mean *)
Example C224_ex : numpy_inv any_inv /\ ~ mirrored [0; 1] /\ mirrored [-1; 0; 1] /\
  (exists p, project any_inv (V3 9 4 1) [0; 1] = Ok p /\ pr_y0 p = pr_y1 p /\ pr_y0 p <> pr_y2 p).
Proof.
  assert (NM : ~ mirrored [0; 1]). { intros M. specialize (M 0%nat ltac:(cbn; lia)). cbn in M. rewrite Rabs_R0, Rabs_R1 in M. lra. }
  split; [apply any_inv_ok|]. split; [auto|]. split.
  - intros [|[|[|i]]] I; cbn in I |- *; try lia; try reflexivity; rewrite (Rabs_left (-1)), Rabs_R1 by lra; lra.
  - destruct (C224_project any_inv (V3 9 4 1) [0; 1] any_inv_ok ltac:(cbn; lra) ltac:(cbn; lra) ltac:(cbn; lra)) as (p & E & _ & _ & _ & _ & _ & A & _).
    exists p. split; [auto|]. split; [auto|]. intros B. apply NM. apply (C224_compare any_inv (V3 9 4 1) [0; 1] p any_inv_ok ltac:(cbn; lra) ltac:(cbn; lra) ltac:(cbn; lra) E). exact B.
Qed.

Print Assumptions C224_project.
Print Assumptions C224_compare.
Print Assumptions C224_linspace.
Print Assumptions C224_minimum.
Print Assumptions C224_dual.
