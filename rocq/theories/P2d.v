(** C201: a PCAOrientation of points in a plane is a line fit. *)
From Coq Require Import Reals Lra Lia List Psatz Arith.
From Verif Require Import RVec Trig MAxes Spec2d M2d LAxes.
Import ListNotations.
Open Scope R_scope.

Definition svd2_ok (svd : svd2_fn) (a : list vec2) : Prop :=
  let '(u, s, v) := svd a in is_svd2 a u s v.
Definition cross_moment (a : list vec2) (n m : vec2) : R := sumf (fun p => dot2 n p * dot2 m p) a.

Lemma frame2 : forall m n k, orthonormal2 m ->
  dot2 n k = dot2 n (q0 m) * dot2 k (q0 m) + dot2 n (q1 m) * dot2 k (q1 m).
Proof.
  intros [[a b] [c d]] [x y] [z w] (U & V & O). unfold unit2, dot2 in *; simpl in *.
  assert (C : c * c = b * b).
  { replace (c * c) with (c * c * (a * a + b * b)) by (rewrite U; ring).
    replace (c * c * (a * a + b * b)) with ((a * c) * (a * c) + b * b * (c * c)) by ring.
    replace (a * c) with (- (b * d)) by lra.
    replace (- (b * d) * - (b * d) + b * b * (c * c)) with (b * b * (c * c + d * d)) by ring. rewrite V; ring. }
  assert (X : a * b + c * d = 0).
  { replace (a * b + c * d) with (a * b * (c * c + d * d) + c * d * (a * a + b * b)) by (rewrite U, V; ring).
    replace (a * b * (c * c + d * d) + c * d * (a * a + b * b)) with ((a * c + b * d) * (b * c + a * d)) by ring.
    rewrite O; ring. }
  replace ((x * a + y * b) * (z * a + w * b) + (x * c + y * d) * (z * c + w * d))
    with (x * z * (a * a + c * c) + y * w * (b * b + d * d) + (x * w + y * z) * (a * b + c * d)) by ring.
  rewrite X, C. replace (b * b + d * d) with 1 by lra. rewrite U. ring.
Qed.

Lemma moment2 : forall a u s v n m, is_svd2 a u s v ->
  cross_moment a n m = fst s * fst s * dot2 n (q0 v) * dot2 m (q0 v) + snd s * snd s * dot2 n (q1 v) * dot2 m (q1 v).
Proof.
  intros a u s v n m H. unfold cross_moment. rewrite (svd2_fact _ _ _ _ H), sumf_map.
  set (A := fst s * fst s * dot2 n (q0 v) * dot2 m (q0 v)).
  set (B := snd s * snd s * dot2 n (q1 v) * dot2 m (q1 v)).
  set (C := fst s * snd s * (dot2 n (q0 v) * dot2 m (q1 v) + dot2 n (q1 v) * dot2 m (q0 v))).
  transitivity (A * sumf (fun p : vec2 => fst p * fst p) u + B * sumf (fun p : vec2 => snd p * snd p) u
     + C * sumf (fun p : vec2 => fst p * snd p) u).
  - rewrite <- !sumf_scal, <- !sumf_plus. apply sumf_ext. intros p _. unfold A, B, C, dot2. simpl. ring.
  - assert (H0 : sumf (fun p : vec2 => fst p * fst p) u = 1) by exact (svd2_u00 _ _ _ _ H).
    assert (H1 : sumf (fun p : vec2 => snd p * snd p) u = 1) by exact (svd2_u11 _ _ _ _ H).
    assert (H2 : sumf (fun p : vec2 => fst p * snd p) u = 0) by exact (svd2_u01 _ _ _ _ H).
    rewrite H0, H1, H2. ring.
Qed.

Lemma fit2_inv : forall svd arr f, svd2_ok svd (centered2 arr) -> PCAOrientation2 svd arr = Ok f ->
  (3 <= length arr)%nat /\ l_arr f = centered2 arr /\ l_n f = length arr /\
  (exists u, is_svd2 (centered2 arr) u (l_s f) (l_axes f)) /\
  (l_normal f = q1 (l_axes f) \/ l_normal f = (- fst (q1 (l_axes f)), - snd (q1 (l_axes f)))) /\
  0 <= snd (l_normal f) /\ l_strike f = fst (l_normal f) /\ l_dip_dr f = None.
Proof.
  intros svd arr f H. unfold PCAOrientation2, svd2_ok in *.
  destruct (length (centered2 arr) <? 3)%nat eqn:L; [discriminate|].
  destruct (svd (centered2 arr)) as [[u s] v]. intro E. injection E as <-. cbn [l_arr l_n l_s l_axes l_normal l_strike l_dip_dr].
  apply Nat.ltb_ge in L. assert (LE : length (centered2 arr) = length arr) by (unfold centered2; apply map_length).
  rewrite LE in *. split; auto. split; auto. split; auto. split. { exists u; auto. }
  destruct (Rlt_dec (snd (q1 v)) 0); simpl; repeat split; auto; try lra.
Qed.

Lemma mean2_is : forall arr, arr <> [] -> is_mean2 (mean2 arr) arr.
Proof.
  intros arr H. assert (INR (length arr) <> 0).
  { apply not_0_INR. destruct arr; simpl; [congruence|lia]. }
  split; auto. unfold mean2; simpl. split; field; auto.
Qed.

Lemma line_error_split : forall arr n d, arr <> [] ->
  line_error n d arr = cross_moment (centered2 arr) n n
    + INR (length arr) * ((dot2 n (mean2 arr) - d) * (dot2 n (mean2 arr) - d)).
Proof.
  intros arr n d H. destruct (mean2_is arr H) as (_ & M0 & M1).
  unfold line_error, cross_moment, centered2. rewrite sumf_map.
  set (m := mean2 arr) in *. clearbody m.
  set (e := dot2 n m - d).
  transitivity (sumf (fun p : vec2 => dot2 n (fst p - fst m, snd p - snd m) * dot2 n (fst p - fst m, snd p - snd m)) arr
    + 2 * e * sumf (fun p : vec2 => dot2 n (fst p - fst m, snd p - snd m)) arr + sumf (fun _ : vec2 => e * e) arr).
  - rewrite <- sumf_scal, <- !sumf_plus. apply sumf_ext. intros p _. unfold e, dot2; simpl; ring.
  - rewrite sumf_const.
    replace (sumf (fun p : vec2 => dot2 n (fst p - fst m, snd p - snd m)) arr) with 0; [rewrite Rmult_0_r, Rplus_0_r; reflexivity|].
    transitivity (fst n * sumf fst arr + snd n * sumf snd arr - sumf (fun _ : vec2 => dot2 n m) arr).
    + rewrite sumf_const, <- M0, <- M1. unfold dot2; ring.
    + rewrite <- !sumf_scal, <- sumf_plus, <- sumf_minus. apply sumf_ext. intros p _. unfold dot2; simpl; ring.
Qed.

Lemma moment_normal : forall svd arr f, svd2_ok svd (centered2 arr) -> PCAOrientation2 svd arr = Ok f ->
  unit2 (l_normal f) /\ cross_moment (centered2 arr) (l_normal f) (l_normal f) = snd (l_s f) * snd (l_s f).
Proof.
  intros svd arr f HS HF. destruct (fit2_inv _ _ _ HS HF) as (_ & _ & _ & (u & S) & N & _).
  destruct (svd2_v _ _ _ _ S) as (U & V & O). rewrite (moment2 _ _ _ _ _ _ S).
  assert (unit2 (l_normal f) /\ dot2 (l_normal f) (q0 (l_axes f)) = 0 /\
    dot2 (l_normal f) (q1 (l_axes f)) * dot2 (l_normal f) (q1 (l_axes f)) = 1) as (A & B & C).
  { destruct N as [-> | ->]; unfold unit2, dot2 in *; simpl in *.
    - split; auto. split. { lra. } rewrite V. ring.
    - split. { lra. } split. { lra. }
      match goal with |- ?x * ?x = 1 => replace x with (-(1)) by lra end. ring. }
  split; auto. rewrite B. rewrite !Rmult_0_r, Rplus_0_l, Rmult_assoc, C. ring.
Qed.

(** The fitted line passes through the mean and no line is closer to the points;
    the error is the square of the last singular value. *)
Theorem C201_line : forall svd arr f, svd2_ok svd (centered2 arr) -> PCAOrientation2 svd arr = Ok f ->
  unit2 (l_normal f) /\ 0 <= snd (l_normal f) /\
  forall m, is_mean2 m arr ->
    line_error (l_normal f) (dot2 (l_normal f) m) arr = snd (l_s f) * snd (l_s f) /\
    forall n d, unit2 n -> line_error (l_normal f) (dot2 (l_normal f) m) arr <= line_error n d arr.
Proof.
  intros svd arr f HS HF. destruct (moment_normal _ _ _ HS HF) as (U & M).
  destruct (fit2_inv _ _ _ HS HF) as (L & _ & _ & (u & S) & _ & P & _).
  split; auto. split; auto. intros m (NE & M0 & M1).
  assert (m = mean2 arr) as ->.
  { assert (INR (length arr) <> 0) by (apply not_0_INR; lia). destruct m; unfold mean2; simpl in *.
    rewrite <- M0, <- M1. f_equal; field; auto. }
  assert (E : line_error (l_normal f) (dot2 (l_normal f) (mean2 arr)) arr = snd (l_s f) * snd (l_s f)).
  { rewrite line_error_split, M by auto. ring. }
  split; auto. intros n d Un. rewrite E, line_error_split, (moment2 _ _ _ _ _ _ S) by auto.
  pose proof (frame2 _ n n (svd2_v _ _ _ _ S)) as F. unfold unit2 in Un. rewrite Un in F.
  pose proof (svd2_s01 _ _ _ _ S). pose proof (svd2_s1 _ _ _ _ S).
  assert (0 <= INR (length arr) * ((dot2 n (mean2 arr) - d) * (dot2 n (mean2 arr) - d))).
  { apply Rmult_le_pos. apply pos_INR. apply Rle_0_sqr. }
  assert (snd (l_s f) * snd (l_s f) <= fst (l_s f) * fst (l_s f)) by nra.
  set (x := dot2 n (q0 (l_axes f))) in *. set (y := dot2 n (q1 (l_axes f))) in *.
  assert (0 <= x * x) by apply Rle_0_sqr.
  assert (snd (l_s f) * snd (l_s f) * (x * x) <= fst (l_s f) * fst (l_s f) * (x * x)) by (apply Rmult_le_compat_r; auto).
  replace (snd (l_s f) * snd (l_s f)) with (snd (l_s f) * snd (l_s f) * (x * x + y * y)) at 1 by (rewrite <- F; ring).
  lra.
Qed.

(** The residuals are the perpendiculars dropped from the points on the line. *)
Theorem C201_residuals : forall svd arr f, svd2_ok svd (centered2 arr) -> PCAOrientation2 svd arr = Ok f ->
  Forall2 (fun r p => exists k, r = (k * fst (l_normal f), k * snd (l_normal f)) /\
     forall m, is_mean2 m arr -> dot2 (l_normal f) (fst p - fst r, snd p - snd r) = dot2 (l_normal f) m)
    (residuals2 f) arr /\
  sumf (fun r => dot2 r r) (residuals2 f) = snd (l_s f) * snd (l_s f).
Proof.
  intros svd arr f HS HF. destruct (fit2_inv _ _ _ HS HF) as (L & A & _ & (u & S) & N & P & _).
  pose proof (svd2_v _ _ _ _ S) as O.
  assert (R : forall p, (fst p - (dot2 p (q0 (l_axes f)) * fst (q0 (l_axes f)) + 0 * fst (q1 (l_axes f))),
                 snd p - (dot2 p (q0 (l_axes f)) * snd (q0 (l_axes f)) + 0 * snd (q1 (l_axes f))))
       = (dot2 p (q1 (l_axes f)) * fst (q1 (l_axes f)), dot2 p (q1 (l_axes f)) * snd (q1 (l_axes f)))).
  { intro p. pose proof (frame2 _ p (1, 0) O) as X. pose proof (frame2 _ p (0, 1) O) as Y.
    unfold dot2 in *. simpl in *. f_equal; lra. }
  destruct (moment_normal _ _ _ HS HF) as (U & M).
  split.
  - unfold residuals2. rewrite A. unfold centered2 at 1. rewrite map_map.
    assert (MM : forall m, is_mean2 m arr -> m = mean2 arr).
    { intros m (_ & M0 & M1). assert (INR (length arr) <> 0) by (apply not_0_INR; lia). destruct m; unfold mean2; simpl in *.
      rewrite <- M0, <- M1. f_equal; field; auto. }
    set (g := mean2 arr) in *. clearbody g.
    assert (K : forall l, Forall2 (fun r p => exists k, r = (k * fst (l_normal f), k * snd (l_normal f)) /\
      forall m, is_mean2 m arr -> dot2 (l_normal f) (fst p - fst r, snd p - snd r) = dot2 (l_normal f) m)
      (map (fun x : vec2 => let t := dot2 (fst x - fst g, snd x - snd g) (q0 (l_axes f)) in
         (fst (fst x - fst g, snd x - snd g) - (t * fst (q0 (l_axes f)) + 0 * fst (q1 (l_axes f))),
          snd (fst x - fst g, snd x - snd g) - (t * snd (q0 (l_axes f)) + 0 * snd (q1 (l_axes f))))) l) l).
    { induction l as [|p l IH]; simpl map; [apply Forall2_nil|]. apply Forall2_cons; [|exact IH].
      pose proof (R (fst p - fst g, snd p - snd g)) as Rp. cbn [fst snd] in Rp. cbv zeta. cbn [fst snd].
      injection Rp as Rx Ry. rewrite !Rx, !Ry.
      set (k := dot2 (fst p - fst g, snd p - snd g) (q1 (l_axes f))).
      assert (KK : exists e, e * e = 1 /\ fst (l_normal f) = e * fst (q1 (l_axes f)) /\ snd (l_normal f) = e * snd (q1 (l_axes f))).
      { destruct N as [-> | ->]; [exists 1 | exists (-(1))]; simpl; repeat split; ring. }
      destruct KK as (e & E1 & E2 & E3). exists (k * e). split.
      - rewrite E2, E3. f_equal;
          [replace (k * e * (e * fst (q1 (l_axes f)))) with (e * e * (k * fst (q1 (l_axes f)))) by ring
          |replace (k * e * (e * snd (q1 (l_axes f)))) with (e * e * (k * snd (q1 (l_axes f)))) by ring]; rewrite E1; ring.
      - intros m Hm. rewrite (MM m Hm). destruct O as (_ & V & _). unfold unit2, dot2 in V. 
        transitivity (e * (dot2 (q1 (l_axes f)) p - k * dot2 (q1 (l_axes f)) (q1 (l_axes f)))).
        + unfold dot2. rewrite E2, E3. cbn [fst snd]. ring.
        + unfold dot2 at 2. rewrite V. unfold k, dot2. rewrite E2, E3. cbn [fst snd]. ring. }
    apply K.
  - unfold residuals2. rewrite A, sumf_map.
    transitivity (cross_moment (centered2 arr) (q1 (l_axes f)) (q1 (l_axes f))).
    + unfold cross_moment. apply sumf_ext. intros p _. cbv zeta. rewrite R.
      destruct O as (_ & V & _). unfold unit2 in V. unfold dot2 in *. cbn [fst snd].
      set (k := fst p * fst (q1 (l_axes f)) + snd p * snd (q1 (l_axes f))).
      replace (k * fst (q1 (l_axes f)) * (k * fst (q1 (l_axes f))) + k * snd (q1 (l_axes f)) * (k * snd (q1 (l_axes f))))
        with (k * k * (fst (q1 (l_axes f)) * fst (q1 (l_axes f)) + snd (q1 (l_axes f)) * snd (q1 (l_axes f)))) by ring.
      rewrite V. unfold k. ring.
    + rewrite <- M. unfold cross_moment. apply sumf_ext. intros p _.
      destruct N as [-> | ->]; unfold dot2; simpl; ring.
Qed.

(** One angle is reported, between 0 and 90 degrees, and it is zero exactly for
    points of one line. *)
Theorem C201_angle : forall svd st arr f z, svd2_ok svd (centered2 arr) -> PCAOrientation2 svd arr = Ok f ->
  f_ppf st (95/100) 2 (INR (length arr) - 2) = Some z -> 0 <= z ->
  exists t, angular_errors2 st f = Some [t] /\ 0 <= t <= 90 /\
    (t = 0 <-> exists n d, unit2 n /\ forall p, In p arr -> dot2 n p = d).
Proof.
  intros svd st arr f z HS HF HZ Z0. destruct (fit2_inv _ _ _ HS HF) as (L & A & LN & (u & S) & _ & P & _).
  destruct (C201_line _ _ _ HS HF) as (U & _ & Best).
  assert (NE : arr <> []) by (destruct arr; simpl in L; [lia|discriminate]).
  destruct (Best _ (mean2_is arr NE)) as (E & B). clear Best.
  assert (N3 : 3 <= INR (length arr)) by (replace 3 with (INR 3) by (simpl; ring); apply le_INR; auto).
  unfold angular_errors2, noise_axes2, eigenvalues2, fisher_statistic, fdiv. rewrite LN.
  destruct (Req_EM_T (INR (length arr) - 1) 0); [lra|]. cbn [obind fst snd].
  destruct (Req_EM_T (INR (length arr) - 2) 0); [lra|]. cbn [obind]. rewrite HZ. cbn [obind].
  set (e0 := fst (l_s f) * fst (l_s f) / (INR (length arr) - 1)).
  set (e1 := snd (l_s f) * snd (l_s f) / (INR (length arr) - 1)).
  set (k := e1 / (INR (length arr) - 2)).
  assert (E0 : 0 <= e0) by (apply Rmult_le_pos; [apply Rle_0_sqr | left; apply Rinv_0_lt_compat; lra]).
  assert (E1 : 0 <= e1) by (apply Rmult_le_pos; [apply Rle_0_sqr | left; apply Rinv_0_lt_compat; lra]).
  assert (K0 : 0 <= k) by (apply Rmult_le_pos; [auto | left; apply Rinv_0_lt_compat; lra]).
  assert (F : forall x, 0 <= x -> fsqrt x = Some (sqrt x)) by (intros x Hx; unfold fsqrt; destruct (Rlt_dec x 0); [lra|auto]).
  assert (X0 : 0 <= 4 * e0 * k) by (apply Rmult_le_pos; [lra|auto]).
  assert (X1 : 0 <= 4 * e1 * k) by (apply Rmult_le_pos; [lra|auto]).
  rewrite (F _ X0). cbn [obind]. rewrite (F _ X1). cbn [obind fst snd].
  set (h0 := Rabs (e0 - z * sqrt (4 * e0 * k))). set (h1 := Rabs (e1 * -1 - z * sqrt (4 * e1 * k))).
  rewrite (F h0 (Rabs_pos _)). cbn [obind]. rewrite (F h1 (Rabs_pos _)). cbn [obind].
  eexists; split; [reflexivity|].
  pose proof (sqrt_pos h0) as S0. pose proof (sqrt_pos h1) as S1. pose proof PI_RGT_0 as PP.
  pose proof (atan2_quadrant _ _ S1 S0) as (T0 & T1). split.
  { unfold degrees. split. apply Rmult_le_pos; [lra | left; apply Rinv_0_lt_compat; auto].
    apply Rmult_le_reg_r with PI; auto. unfold Rdiv. rewrite Rmult_assoc, Rinv_l by lra. lra. }
  assert (EQ : degrees (atan2 (sqrt h1) (sqrt h0)) = 0 <-> snd (l_s f) = 0).
  { split; intro H.
    - assert (H0 : atan2 (sqrt h1) (sqrt h0) = 0).
      { unfold degrees in H. apply Rmult_eq_reg_r with (180 / PI).
        - replace (atan2 (sqrt h1) (sqrt h0) * (180 / PI)) with (atan2 (sqrt h1) (sqrt h0) * 180 / PI) by (field; lra). lra.
        - apply Rgt_not_eq. apply Rmult_lt_0_compat; [lra | apply Rinv_0_lt_compat; auto]. }
      destruct (Req_dec (snd (l_s f)) 0) as [?|NZ]; auto. exfalso.
      assert (0 < e1). { apply Rmult_lt_0_compat; [| apply Rinv_0_lt_compat; lra]. pose proof (Rlt_0_sqr _ NZ) as Q. unfold Rsqr in Q. lra. }
      assert (0 <= z * sqrt (4 * e1 * k)) by (apply Rmult_le_pos; [auto | apply sqrt_pos]).
      assert (0 < h1) by (unfold h1; apply Rabs_pos_lt; lra).
      assert (0 < sqrt h1) by (apply sqrt_lt_R0; auto).
      rewrite atan2_axis in H0 by auto. pose proof (atan_bound (sqrt h0 / sqrt h1)). lra.
    - assert (e1 = 0) by (unfold e1; rewrite H; field; lra).
      assert (h1 = 0). { unfold h1. rewrite H0. replace (4 * 0 * k) with 0 by ring. rewrite sqrt_0. rewrite Rabs_pos_eq; lra. }
      rewrite H1, sqrt_0, atan2_zero_num by apply sqrt_pos. unfold degrees. field. lra. }
  rewrite EQ. split.
  - intro H. exists (l_normal f), (dot2 (l_normal f) (mean2 arr)). split; auto. intros p Hp.
    rewrite H, Rmult_0_r in E. unfold line_error in E.
    pose proof (sumf_zero_all _ _ _ (fun a _ => Rle_0_sqr _) E p Hp) as Q. simpl in Q.
    apply Rmult_integral in Q. lra.
  - intros (v & d & Un & H). specialize (B v d Un). rewrite E in B.
    replace (line_error v d arr) with 0 in B.
    + pose proof (svd2_s1 _ _ _ _ S). apply Rsqr_0_uniq. unfold Rsqr. pose proof (Rle_0_sqr (snd (l_s f))) as Q. unfold Rsqr in Q. lra.
    + unfold line_error. transitivity (sumf (fun _ : vec2 => 0) arr). { rewrite sumf_const. ring. }
      apply sumf_ext. intros p Hp. rewrite (H p Hp). ring.
Qed.

(** The calls that describe a plane raise. *)
Theorem C201_calls : forall svd arr f, PCAOrientation2 svd arr = Ok f ->
  strike_dip2 f = Raise IndexError /\ rake2 f = Raise TypeError /\ to_mapping2 f = Raise IndexError.
Proof.
  intros svd arr f. unfold PCAOrientation2. destruct (_ <? 3)%nat; [discriminate|].
  destruct (svd (centered2 arr)) as [[u s] v]. intro H. injection H as <-.
  unfold strike_dip2, rake2, to_mapping2; simpl. auto.
Qed.

Lemma var2_value : forall xs, xs <> [] -> sumf (fun x => x) xs = 0 ->
  var2 xs = Some (sumf (fun x => x * x) xs / INR (length xs)).
Proof.
  intros xs H S. unfold var2, fdiv. assert (INR (length xs) <> 0) by (apply not_0_INR; destruct xs; simpl; [congruence|lia]).
  destruct (Req_EM_T (INR (length xs)) 0); [contradiction|]. cbn [obind]. rewrite S.
  f_equal. f_equal. apply sumf_ext. intros x _. unfold Rdiv. ring.
Qed.

(** Explained variance is 1 whatever the points are, unless they all coincide. *)
Theorem C201_explained : forall svd arr f, svd2_ok svd (centered2 arr) -> PCAOrientation2 svd arr = Ok f ->
  (exists p q, In p arr /\ In q arr /\ p <> q) -> explained_variance2 f = Some 1.
Proof.
  intros svd arr f HS HF (p & q & Ip & Iq & D).
  destruct (fit2_inv _ _ _ HS HF) as (L & A & LN & (u & S) & _).
  assert (NE : arr <> []) by (destruct arr; simpl in L; [lia|discriminate]).
  destruct (mean2_is arr NE) as (_ & M0 & M1).
  assert (LC : length (centered2 arr) = length arr) by (unfold centered2; apply map_length).
  assert (NZ : 0 < INR (length arr)) by (apply lt_0_INR; lia).
  pose proof (svd2_v _ _ _ _ S) as O. pose proof O as (O0 & O1 & O01).
  assert (C : forall n, sumf (fun x => x) (map (fun p => dot2 p n) (centered2 arr)) = 0).
  { intro n. rewrite sumf_map. unfold centered2. rewrite sumf_map.
    transitivity (fst n * sumf fst arr + snd n * sumf snd arr - sumf (fun _ : vec2 => dot2 n (mean2 arr)) arr).
    - rewrite <- !sumf_scal, <- sumf_plus, <- sumf_minus. apply sumf_ext. intros; unfold dot2; simpl; ring.
    - rewrite sumf_const, <- M0, <- M1. unfold dot2; ring. }
  assert (V : forall n, var2 (map (fun p => dot2 p n) (centered2 arr))
     = Some (cross_moment (centered2 arr) n n / INR (length arr))).
  { intro n. rewrite var2_value; auto.
    - rewrite map_length, LC, sumf_map. f_equal. f_equal. apply sumf_ext. intros; unfold dot2; ring.
    - intro X. apply (f_equal (@length R)) in X. rewrite map_length, LC in X. simpl in X. lia. }
  unfold explained_variance2, rotated2. rewrite A, !map_map. cbn [fst snd].
  rewrite !V. cbn [obind]. rewrite !(moment2 _ _ _ _ _ _ S).
  assert (O10 : dot2 (q1 (l_axes f)) (q0 (l_axes f)) = 0) by (unfold dot2 in *; lra).
  unfold unit2 in *. rewrite O0, O1, O01, O10.
  assert (P0 : 0 < fst (l_s f)).
  { pose proof (svd2_s01 _ _ _ _ S). pose proof (svd2_s1 _ _ _ _ S).
    destruct (Req_dec (fst (l_s f)) 0) as [E|]; [|lra]. exfalso.
    assert (E1 : snd (l_s f) = 0) by lra.
    assert (Z : forall n, cross_moment (centered2 arr) n n = 0) by (intro n; rewrite (moment2 _ _ _ _ _ _ S), E, E1; ring).
    assert (W : forall x, In x arr -> x = mean2 arr).
    { intros x Hx. assert (I : In (fst x - fst (mean2 arr), snd x - snd (mean2 arr)) (centered2 arr)).
      { unfold centered2. apply (in_map (fun p : vec2 => (fst p - fst (mean2 arr), snd p - snd (mean2 arr))) arr x Hx). }
      pose proof (sumf_zero_all _ _ _ (fun a _ => Rle_0_sqr _) (Z (1, 0)) _ I) as Q0.
      pose proof (sumf_zero_all _ _ _ (fun a _ => Rle_0_sqr _) (Z (0, 1)) _ I) as Q1.
      cbv beta in Q0, Q1. apply Rmult_integral in Q0, Q1. unfold dot2 in Q0, Q1. cbn [fst snd] in Q0, Q1.
      clear - Q0 Q1. destruct (mean2 arr) as [a b]. destruct x as [c d]. cbn [fst snd] in *. f_equal; lra. }
    apply D. rewrite (W p Ip), (W q Iq). reflexivity. }
  pose proof (svd2_s1 _ _ _ _ S).
  match goal with |- fdiv ?x _ = _ => assert (PX : 0 < x) end.
  { assert (0 < 4 * fst (l_s f) * ((fst (l_s f) * fst (l_s f) * 1 * 1 + snd (l_s f) * snd (l_s f) * 0 * 0) / INR (length arr))).
    { assert (0 < fst (l_s f) * fst (l_s f)) by (apply Rmult_lt_0_compat; auto).
      apply Rmult_lt_0_compat; [lra|]. apply Rmult_lt_0_compat; [lra|]. apply Rinv_0_lt_compat; auto. }
    assert (0 <= 4 * snd (l_s f) * ((fst (l_s f) * fst (l_s f) * 0 * 0 + snd (l_s f) * snd (l_s f) * 1 * 1) / INR (length arr))).
    { assert (0 <= snd (l_s f) * snd (l_s f)) by (apply Rmult_le_pos; auto).
      apply Rmult_le_pos; [lra|]. apply Rmult_le_pos; [lra|]. left; apply Rinv_0_lt_compat; auto. }
    lra. }
  unfold fdiv. destruct (Req_EM_T _ 0); [lra|]. f_equal. unfold Rdiv. apply Rinv_r. lra.
Qed.

Definition line_through (n : vec2) (d : R) (pts : list vec2) : Prop := forall p, In p pts -> dot2 n p = d.
Definition line_data : list vec2 := [(2, 0); (-2, 0); (0, 1); (0, -1)].
Definition line_svd : svd2_fn := fun _ =>
  ([(/ sqrt 2, 0); (- / sqrt 2, 0); (0, / sqrt 2); (0, - / sqrt 2)], (2 * sqrt 2, sqrt 2), M2 (1, 0) (0, 1)).

Lemma line_centered : centered2 line_data = line_data.
Proof. unfold centered2, mean2, line_data; simpl. repeat f_equal; field. Qed.
Lemma line_svd_ok : svd2_ok line_svd (centered2 line_data).
Proof.
  rewrite line_centered. unfold svd2_ok, line_svd, line_data.
  assert (S2 : sqrt 2 * sqrt 2 = 2) by (apply sqrt_sqrt; lra).
  assert (P2 : 0 < sqrt 2) by (apply sqrt_lt_R0; lra).
  assert (I2 : / sqrt 2 * / sqrt 2 = / 2) by (rewrite <- Rinv_mult, S2; auto).
  constructor; simpl.
  - repeat f_equal; field; lra.
  - rewrite !Ropp_mult_distr_l_reverse, !Ropp_mult_distr_r_reverse, Ropp_involutive, I2. lra.
  - rewrite !Ropp_mult_distr_l_reverse, !Ropp_mult_distr_r_reverse, Ropp_involutive, I2. lra.
  - ring.
  - unfold orthonormal2, unit2, dot2; simpl; repeat split; ring.
  - lra.
  - lra.
Qed.
Example C201_ex : exists f, PCAOrientation2 line_svd line_data = Ok f /\ svd2_ok line_svd (centered2 line_data) /\
  l_normal f = (0, 1) /\ snd (l_s f) * snd (l_s f) = 2 /\ explained_variance2 f = Some 1.
Proof.
  assert (S2 : sqrt 2 * sqrt 2 = 2) by (apply sqrt_sqrt; lra).
  assert (X : exists f, PCAOrientation2 line_svd line_data = Ok f /\ l_normal f = (0, 1) /\ snd (l_s f) = sqrt 2).
  { unfold PCAOrientation2. rewrite line_centered. eexists. split. cbn. reflexivity. cbn [l_normal l_s snd].
    destruct (Rlt_dec 1 0); [lra|]. auto. }
  destruct X as (f & E & N & SS). exists f. split; [exact E|]. split; [exact line_svd_ok|]. split; [exact N|].
  split. { rewrite SS. exact S2. }
  apply (C201_explained _ _ _ line_svd_ok E). exists (2, 0), (0, 1). simpl. split; auto. split; auto.
  intro H. injection H. lra.
Qed.

(** Two distinct points have exactly one line, but it is refused. *)
Theorem C201_two_points_refuted : exists p q : vec2, p <> q /\
  (exists n d, unit2 n /\ line_through n d [p; q] /\
     forall n' d', unit2 n' -> line_through n' d' [p; q] ->
       (n' = n /\ d' = d) \/ (n' = (- fst n, - snd n) /\ d' = - d)) /\
  forall svd, PCAOrientation2 svd [p; q] = Raise ValueError.
Proof.
  exists (0, 0), (1, 0). split. { intro H. injection H. lra. } split.
  - exists (0, 1), 0. split. { unfold unit2, dot2; simpl; ring. } split.
    + intros p [<- | [<- | []]]; unfold dot2; simpl; ring.
    + intros [x y] d U H. pose proof (H (0, 0) ltac:(simpl; auto)) as A. pose proof (H (1, 0) ltac:(simpl; auto)) as B.
      unfold unit2, dot2 in *. simpl in *. assert (d = 0) by lra. assert (x = 0) by lra. subst x d.
      assert (Y : (y - 1) * (y + 1) = 0) by lra. apply Rmult_integral in Y. destruct Y; [left|right]; split; try ring;
      f_equal; lra.
  - intro svd. reflexivity.
Qed.

Print Assumptions C201_line.
Print Assumptions C201_residuals.
Print Assumptions C201_angle.
Print Assumptions C201_calls.
Print Assumptions C201_explained.
Print Assumptions C201_two_points_refuted.
