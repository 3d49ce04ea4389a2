(** C237: the lines of the aligned residuals figure. *)
From Coq Require Import Reals Lra Lia List Psatz.
From Verif Require Import RVec SpecPlane MPca LSvd LPca LExamples PPca MResid.
Import ListNotations.
Notation length := List.length.
Open Scope R_scope.

(** squared vertical distances of points from the line with slope [a] and intercept [b] *)
Definition line_sse (l : list (R * R)) (a b : R) : R :=
  sumf (fun q => (snd q - (a * fst q + b)) * (snd q - (a * fst q + b))) l.
Definition least (l : list (R * R)) (a b : R) : Prop := forall a' b', line_sse l a b <= line_sse l a' b'.
(** a pseudoinverse: of all best lines the one with the smallest coefficients *)
Definition pinv_line (g : list (R * R) -> R * R) : Prop := forall l,
  least l (fst (g l)) (snd (g l)) /\
  forall a b, least l a b -> fst (g l) * fst (g l) + snd (g l) * snd (g l) <= a * a + b * b.

Lemma line_flat : forall l sx, sumf (fun q => fst q * snd q) l = 0 -> sumf (fun q => fst q) l = 0 -> sumf (fun q => snd q) l = 0 ->
  sumf (fun q => fst q * fst q) l = sx ->
  forall a b, line_sse l a b = line_sse l 0 0 + a * a * sx + INR (length l) * (b * b).
Proof.
  intros l sx XY X Y XX a b. unfold line_sse.
  assert (G : forall l, sumf (fun q => (snd q - (a * fst q + b)) * (snd q - (a * fst q + b))) l =
    sumf (fun q => (snd q - (0 * fst q + 0)) * (snd q - (0 * fst q + 0))) l + a * a * sumf (fun q => fst q * fst q) l + INR (length l) * (b * b)
    - 2 * a * sumf (fun q => fst q * snd q) l - 2 * b * sumf (fun q => snd q) l + 2 * a * b * sumf (fun q => fst q) l).
  { clear. induction l as [|q t IH]; [simpl; ring|]. cbn [sumf length]. rewrite IH, S_INR. ring. }
  rewrite G, XY, X, Y, XX. ring.
Qed.

Lemma section_sums : forall svd arr f, lapack svd -> PCAOrientation svd arr None None = Ok f ->
  let R1 := rotated f in
  sumf vx R1 = 0 /\ sumf vy R1 = 0 /\ sumf vz R1 = 0 /\
  sumf (fun p => vx p * vz p) R1 = 0 /\ sumf (fun p => vy p * vz p) R1 = 0 /\
  sumf (fun p => vx p * vx p) R1 = vx (p_s f) * vx (p_s f) /\ sumf (fun p => vy p * vy p) R1 = vy (p_s f) * vy (p_s f) /\
  sumf (fun p => vz p * vz p) R1 = vz (p_s f) * vz (p_s f) /\ length R1 = length arr.
Proof.
  intros svd arr f HL HF. destruct (fit_inv svd arr f HL HF) as (R3 & u & mu & SV & MU & _ & PA & _).
  cbv zeta. unfold rotated. rewrite PA, !sumf_map.
  assert (Z : forall d, sumf (fun p => dot d p) (centered arr) = 0).
  { intros d. rewrite (sumf_ext _ _ (fun p => dot p d)) by (intros; apply dot_comm). rewrite dot_vsum, centered_sum. apply dot_zero_l. }
  destruct (Q_axes _ _ _ _ SV) as (A0 & A1 & A2). destruct (Q_offdiag _ _ _ _ SV) as (O1 & O2 & O3).
  assert (QQ : forall d e, sumf (fun p => dot d p * dot e p) (centered arr) = Q (centered arr) d e).
  { intros d e. unfold Q. apply sumf_ext. intros p _. rewrite (dot_comm d), (dot_comm e). reflexivity. }
  unfold mv. cbn [vx vy vz]. rewrite !Z, !QQ, map_length, centered_length. repeat split; auto.
Qed.

(** such a function exists *)
Definition mean_of (g : R * R -> R) (l : list (R * R)) : R := sumf g l / INR (length l).
Definition cross_of (g h : R * R -> R) (l : list (R * R)) : R := sumf (fun q => (g q - mean_of g l) * (h q - mean_of h l)) l.
Definition pinv_ref (l : list (R * R)) : R * R :=
  let x := mean_of fst l in let y := mean_of snd l in
  match l with [] => (0, 0) | _ =>
    if Req_EM_T (cross_of fst fst l) 0 then (x * y / (1 + x * x), y / (1 + x * x))
    else let a := cross_of fst snd l / cross_of fst fst l in (a, y - a * x)
  end.
Lemma sse_parts : forall l, l <> [] -> forall a b, line_sse l a b =
  cross_of snd snd l - 2 * a * cross_of fst snd l + a * a * cross_of fst fst l
  + INR (length l) * ((mean_of snd l - a * mean_of fst l - b) * (mean_of snd l - a * mean_of fst l - b)).
Proof.
  intros l NE a b. assert (N : 0 < INR (length l)) by (apply lt_0_INR; destruct l; [congruence|simpl; lia]).
  set (x := mean_of fst l). set (y := mean_of snd l).
  assert (SX : sumf (fun q : R * R => fst q - x) l = 0).
  { assert (G : forall l0 : list (R * R), sumf (fun q => fst q - x) l0 = sumf fst l0 - INR (length l0) * x).
    { induction l0 as [|q t IH]; [simpl; ring|]. cbn [sumf length]. rewrite IH, S_INR. ring. }
    rewrite G. unfold x, mean_of. field. lra. }
  assert (SY : sumf (fun q : R * R => snd q - y) l = 0).
  { assert (G : forall l0 : list (R * R), sumf (fun q => snd q - y) l0 = sumf snd l0 - INR (length l0) * y).
    { induction l0 as [|q t IH]; [simpl; ring|]. cbn [sumf length]. rewrite IH, S_INR. ring. }
    rewrite G. unfold y, mean_of. field. lra. }
  unfold line_sse, cross_of. fold x y. set (k := y - a * x - b).
  assert (G : forall l0 : list (R * R), sumf (fun q => (snd q - (a * fst q + b)) * (snd q - (a * fst q + b))) l0 =
    sumf (fun q => (snd q - y) * (snd q - y)) l0 - 2 * a * sumf (fun q => (fst q - x) * (snd q - y)) l0
    + a * a * sumf (fun q => (fst q - x) * (fst q - x)) l0 + INR (length l0) * (k * k)
    + 2 * k * sumf (fun q => snd q - y) l0 - 2 * a * k * sumf (fun q => fst q - x) l0).
  { induction l0 as [|q t IH]; [simpl; ring|]. cbn [sumf length]. rewrite IH, S_INR. unfold k. ring. }
  rewrite G, SX, SY. ring.
Qed.
Lemma sq0 : forall d k, 0 < k -> k * (d * d) <= 0 -> d = 0.
Proof. intros d k K H. apply Rsqr_0_uniq. unfold Rsqr. assert (0 <= d * d) by apply Rle_0_sqr. nra. Qed.
Lemma pinv_ref_ok : pinv_line pinv_ref.
Proof.
  intros l. destruct l as [|q t]. { split; [intros a b; unfold line_sse; simpl; lra|]. intros a b _. simpl. nra. }
  set (l := q :: t). assert (NE : l <> []) by discriminate. assert (N : 0 < INR (length l)) by (apply lt_0_INR; simpl; lia).
  pose proof (sse_parts l NE) as P.
  replace (pinv_ref l) with (if Req_EM_T (cross_of fst fst l) 0 then (mean_of fst l * mean_of snd l / (1 + mean_of fst l * mean_of fst l), mean_of snd l / (1 + mean_of fst l * mean_of fst l))
    else (cross_of fst snd l / cross_of fst fst l, mean_of snd l - cross_of fst snd l / cross_of fst fst l * mean_of fst l)) by reflexivity.
  set (x := mean_of fst l) in *. set (y := mean_of snd l) in *. set (c := cross_of fst snd l) in *. set (s := cross_of fst fst l) in *. set (n := INR (length l)) in *.
  assert (S0 : 0 <= s) by (apply sumf_nonneg; intros; apply Rle_0_sqr).
  destruct (Req_EM_T s 0) as [Z|NZ]; cbn [fst snd].
  - assert (C0 : c = 0).
    { assert (E : forall p, In p l -> fst p - x = 0).
      { intros p I. unfold s, cross_of in Z. fold x in Z. clear - Z I. clearbody x. clearbody l. induction l as [|a l IH]; [destruct I|]. cbn [sumf] in Z.
        assert (0 <= sumf (fun q => (fst q - x) * (fst q - x)) l) by (apply sumf_nonneg; intros; apply Rle_0_sqr).
        pose proof (Rle_0_sqr (fst a - x)) as K. unfold Rsqr in K. destruct I as [->|I]; [nra|apply IH; auto; lra]. }
      unfold c, cross_of. fold x y. rewrite (sumf_ext _ _ (fun _ => 0)); [|intros p I; rewrite E by auto; ring]. clear. induction l; simpl; lra. }
    assert (D : 0 < 1 + x * x) by nra.
    assert (B0 : y - x * y / (1 + x * x) * x - y / (1 + x * x) = 0) by (field; lra).
    assert (L : least l (x * y / (1 + x * x)) (y / (1 + x * x))).
    { intros a b. rewrite !P, C0, Z, B0. pose proof (Rle_0_sqr (y - a * x - b)) as K. unfold Rsqr in K. nra. }
    split; [exact L|]. intros a b LE. specialize (LE (x * y / (1 + x * x)) (y / (1 + x * x))). rewrite !P, C0, Z, B0 in LE.
    assert (K : y - a * x - b = 0) by (apply (sq0 _ n N); lra).
    replace (x * y / (1 + x * x) * (x * y / (1 + x * x)) + y / (1 + x * x) * (y / (1 + x * x))) with (y * y / (1 + x * x)) by (field; lra).
    apply Rmult_le_reg_r with (1 + x * x); auto. replace (y * y / (1 + x * x) * (1 + x * x)) with (y * y) by (field; lra).
    replace y with (a * x + b) by lra. pose proof (Rle_0_sqr (a - b * x)) as Q. unfold Rsqr in Q. lra.
  - assert (SP : 0 < s) by lra.
    assert (P2 : forall a b, line_sse l a b = cross_of snd snd l - c * c / s + s * ((a - c / s) * (a - c / s)) + n * ((y - a * x - b) * (y - a * x - b)))
      by (intros a b; rewrite P; field; lra).
    split.
    + intros a b. rewrite !P2. replace (y - c / s * x - (y - c / s * x)) with 0 by ring. replace (c / s - c / s) with 0 by ring.
      pose proof (Rle_0_sqr (y - a * x - b)) as K. pose proof (Rle_0_sqr (a - c / s)) as K2. unfold Rsqr in *. nra.
    + intros a b LE. specialize (LE (c / s) (y - c / s * x)). rewrite !P2 in LE. replace (y - c / s * x - (y - c / s * x)) with 0 in LE by ring.
      replace (c / s - c / s) with 0 in LE by ring.
      pose proof (Rle_0_sqr (y - a * x - b)) as K. pose proof (Rle_0_sqr (a - c / s)) as K2. unfold Rsqr in *.
      assert (T1 : 0 <= s * ((a - c / s) * (a - c / s))) by (apply Rmult_le_pos; lra).
      assert (T2 : 0 <= n * ((y - a * x - b) * (y - a * x - b))) by (apply Rmult_le_pos; lra).
      assert (X1 : a - c / s = 0) by (apply (sq0 _ s SP); lra). assert (X2 : y - a * x - b = 0) by (apply (sq0 _ n N); lra).
      assert (EA : a = c / s) by lra. rewrite EA in *. assert (b = y - c / s * x) by lra. subst b. lra.
Qed.

(** Both lines lie on the axis of the figure whatever was fitted, and both panels have the same
    sum of squares about them. *)
Theorem C237_flat : forall svd regplot arr f, lapack svd -> pinv_line regplot -> PCAOrientation svd arr None None = Ok f ->
  exists one two, aligned_residuals regplot f = [(one, (0, 0)); (two, (0, 0))] /\
  map snd one = map snd two /\
  line_sse one 0 0 = vz (p_s f) * vz (p_s f) /\ line_sse two 0 0 = vz (p_s f) * vz (p_s f) /\
  (0 < vx (p_s f) -> forall a b, least one a b -> a = 0 /\ b = 0) /\
  (0 < vy (p_s f) -> forall a b, least two a b -> a = 0 /\ b = 0).
Proof.
  intros svd g arr f HL HG HF. destruct (section_sums svd arr f HL HF) as (X & Y & Z & XZ & YZ & XX & YY & ZZ & LE). cbv zeta in *.
  destruct (fit_inv svd arr f HL HF) as (R3 & _).
  set (one := map (fun p => (vx p, vz p)) (rotated f)). set (two := map (fun p => (vy p, vz p)) (rotated f)).
  assert (NP : 0 < INR (length arr)) by (apply lt_0_INR; lia).
  assert (L1 : forall a b, line_sse one a b = line_sse one 0 0 + a * a * (vx (p_s f) * vx (p_s f)) + INR (length arr) * (b * b)).
  { intros a b. rewrite <- LE. replace (length (rotated f)) with (length one) by apply map_length.
    apply line_flat; unfold one; rewrite sumf_map; assumption. }
  assert (L2 : forall a b, line_sse two a b = line_sse two 0 0 + a * a * (vy (p_s f) * vy (p_s f)) + INR (length arr) * (b * b)).
  { intros a b. rewrite <- LE. replace (length (rotated f)) with (length two) by apply map_length.
    apply line_flat; unfold two; rewrite sumf_map; assumption. }
  assert (FL : forall l s, (forall a b, line_sse l a b = line_sse l 0 0 + a * a * (s * s) + INR (length arr) * (b * b)) ->
    g l = (0, 0) /\ (0 < s -> forall a b, least l a b -> a = 0 /\ b = 0)).
  { intros l s H. split.
    - destruct (HG l) as [_ M]. assert (O : least l 0 0).
      { intros a b. rewrite (H a b). assert (0 <= a * a) by apply Rle_0_sqr. assert (0 <= s * s) by apply Rle_0_sqr. assert (0 <= b * b) by apply Rle_0_sqr. nra. }
      specialize (M 0 0 O). destruct (g l) as [a b]. cbn [fst snd] in M. f_equal; nra.
    - intros S a b LL. specialize (LL 0 0). rewrite (H a b) in LL.
      assert (0 <= a * a) by apply Rle_0_sqr. assert (0 < s * s) by nra. assert (0 <= b * b) by apply Rle_0_sqr.
      assert (a * a = 0) by nra. assert (b * b = 0) by nra. split; nra. }
  destruct (FL one _ L1) as [G1 U1]. destruct (FL two _ L2) as [G2 U2].
  exists one, two. split; [unfold aligned_residuals, sections; cbn [map]; fold one two; now rewrite G1, G2|].
  split; [unfold one, two; rewrite !map_map; reflexivity|].
  split; [|split; [|split; auto]].
  - rewrite <- ZZ. unfold line_sse, one. rewrite sumf_map. apply sumf_ext. intros p _. cbn [fst snd]. ring.
  - rewrite <- ZZ. unfold line_sse, two. rewrite sumf_map. apply sumf_ext. intros p _. cbn [fst snd]. ring.
Qed.

Example C237_ex : exists f, PCAOrientation svd_ref (axis_data 3 2 1) None None = Ok f /\ 0 < vz (p_s f) /\
  map snd (aligned_residuals pinv_ref f) = [(0, 0); (0, 0)].
Proof.
  destruct example_fit as (f & H & _ & P & _). exists f. split; auto. split; auto.
  destruct (C237_flat svd_ref pinv_ref _ f lapack_ref pinv_ref_ok H) as (one & two & E & _). rewrite E. reflexivity.
Qed.

Print Assumptions C237_flat.
