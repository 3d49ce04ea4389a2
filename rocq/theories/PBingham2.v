(** Property C161: the truncated series of bingham.py. *)
From Coq Require Import Reals Lra Lia List Psatz Arith Bool ZArith Permutation SeqProp.
From Verif Require Import RVec Trig MPca LSvd LPca MAxes MSphere MHyper MBingham.
Import ListNotations.
Open Scope R_scope.

(** what is used of the gamma function *)
Definition gamma_fun (g : R -> R) : Prop := (forall x, 0 < x -> g (x + 1) = x * g x) /\ (forall x, 0 < x -> 0 < g x).
Definition coef (g : R -> R) (i j : nat) : R := g (INR i + 1 / 2) * g (INR j + 1 / 2) / g (INR i + INR j + 3 / 2).
Definition pterm (k : R) (i : nat) : R := / INR (fact i) * k ^ i.

Lemma coef_pos : forall g i j, gamma_fun g -> 0 < coef g i j.
Proof.
  intros g i j [_ P]. pose proof (pos_INR i). pose proof (pos_INR j). unfold coef.
  apply Rmult_lt_0_compat; [apply Rmult_lt_0_compat|apply Rinv_0_lt_compat]; apply P; lra.
Qed.
Lemma coef_sym : forall g i j, coef g i j = coef g j i.
Proof. intros. unfold coef. rewrite (Rplus_comm (INR j) (INR i)). unfold Rdiv. ring. Qed.
Lemma coef_step : forall g i j, gamma_fun g -> coef g (S i) j = (INR i + 1 / 2) / (INR i + INR j + 3 / 2) * coef g i j.
Proof.
  intros g i j [E P]. pose proof (pos_INR i). pose proof (pos_INR j). unfold coef. rewrite S_INR.
  replace (INR i + 1 + 1 / 2) with (INR i + 1 / 2 + 1) by ring. replace (INR i + 1 + INR j + 3 / 2) with (INR i + INR j + 3 / 2 + 1) by ring.
  rewrite !E by lra. pose proof (P (INR i + INR j + 3 / 2) ltac:(lra)). field. lra.
Qed.
Lemma coef_00 : forall g, gamma_fun g -> coef g 0 0 = 2 * g (1 / 2).
Proof.
  intros g [E P]. unfold coef. cbn [INR]. rewrite !Rplus_0_l. replace (3 / 2) with (1 / 2 + 1) by field. rewrite E by lra.
  pose proof (P (1 / 2) ltac:(lra)). field. lra.
Qed.
Lemma coef_bound : forall g i j, gamma_fun g -> coef g i j <= 2 * g (1 / 2).
Proof.
  intros g i j G. rewrite <- coef_00 by auto.
  assert (K : forall i j, coef g (S i) j <= coef g i j).
  { intros a b. rewrite coef_step by auto. pose proof (pos_INR a). pose proof (pos_INR b). pose proof (coef_pos g a b G).
    assert (Q : (INR a + 1 / 2) / (INR a + INR b + 3 / 2) <= 1).
    { apply (Rmult_le_reg_r (INR a + INR b + 3 / 2)); [lra|]. replace ((INR a + 1 / 2) / (INR a + INR b + 3 / 2) * (INR a + INR b + 3 / 2)) with (INR a + 1 / 2) by (field; lra). lra. }
    rewrite <- (Rmult_1_l (coef g a b)) at 2. apply Rmult_le_compat_r; lra. }
  apply Rle_trans with (coef g 0 j).
  - induction i as [|i IH]; [lra|]. eapply Rle_trans; [apply K|exact IH].
  - rewrite coef_sym. induction j as [|j IH]; [lra|]. eapply Rle_trans; [apply K|exact IH].
Qed.
Lemma term_value : forall g k1 k2 i j, gamma_fun g -> series_term g k1 k2 i j = coef g i j * (pterm k1 i * pterm k2 j).
Proof.
  intros g k1 k2 i j [_ P]. pose proof (pos_INR i). pose proof (pos_INR j). unfold series_term, coef, pterm.
  pose proof (P (INR i + INR j + 3 / 2) ltac:(lra)). pose proof (INR_fact_neq_0 i). pose proof (INR_fact_neq_0 j). field. repeat split; auto; lra.
Qed.
Lemma sumf_prod : forall A B (f : A * B -> R) l k, sumf f (list_prod l k) = sumf (fun a => sumf (fun b => f (a, b)) k) l.
Proof.
  induction l as [|a l IH]; intros k; [reflexivity|]. cbn [list_prod sumf]. rewrite sumf_app, sumf_map, IH. reflexivity.
Qed.
Lemma sumf_swap : forall A B (f : A -> B -> R) l k, sumf (fun a => sumf (f a) k) l = sumf (fun b => sumf (fun a => f a b) l) k.
Proof.
  intros A B f l k. induction l as [|a l IH]; [cbn [sumf]; rewrite sumf_const; ring|]. cbn [sumf]. rewrite IH, <- sumf_plus. reflexivity.
Qed.
Lemma confluent_value : forall g k1 k2 n, gamma_fun g ->
  confluent g k1 k2 n = sumf (fun i => sumf (fun j => coef g i j * (pterm k1 i * pterm k2 j)) (seq 0 n)) (seq 0 n).
Proof.
  intros g k1 k2 n G. unfold confluent. rewrite sumf_prod. apply sumf_ext. intros i _. apply sumf_ext. intros j _. now apply term_value.
Qed.
Lemma pterm_nonneg : forall k i, 0 <= k -> 0 <= pterm k i.
Proof. intros k i K. unfold pterm. apply Rmult_le_pos; [left; apply Rinv_0_lt_compat, INR_fact_lt_0|now apply pow_le]. Qed.
Lemma sumf_seq : forall f n, sumf f (seq 0 (S n)) = sum_f_R0 f n.
Proof.
  intros f n. induction n as [|n IH]; [cbn; ring|]. rewrite seq_S, sumf_app, IH. cbn [sumf sum_f_R0 Nat.add]. ring.
Qed.
Lemma exp_bound : forall k n, 0 <= k -> sumf (pterm k) (seq 0 n) <= exp k.
Proof.
  intros k [|n] K; [cbn; left; apply exp_pos|]. rewrite sumf_seq. unfold exp. destruct (exist_exp k) as [l L]. cbn [proj1_sig].
  apply sum_incr; [exact L|]. intros i. now apply pterm_nonneg.
Qed.

(** the two arguments may be exchanged *)
Theorem C161_symmetric : forall g k1 k2 n, gamma_fun g -> confluent g k1 k2 n = confluent g k2 k1 n.
Proof.
  intros g k1 k2 n G. rewrite !confluent_value by auto. rewrite sumf_swap. apply sumf_ext. intros i _. apply sumf_ext. intros j _. rewrite coef_sym. ring.
Qed.
(** for arguments that are not negative the values increase with the number of terms and
    stay below 2 gamma(1/2) exp(k1 + k2), so they converge *)
Theorem C161_increasing : forall g k1 k2 n, gamma_fun g -> 0 <= k1 -> 0 <= k2 ->
  confluent g k1 k2 n <= confluent g k1 k2 (S n) <= 2 * g (1 / 2) * exp (k1 + k2) /\ 2 * g (1 / 2) <= confluent g k1 k2 (S n).
Proof.
  intros g k1 k2 n G K1 K2.
  assert (T : forall i j, 0 <= coef g i j * (pterm k1 i * pterm k2 j)).
  { intros i j. apply Rmult_le_pos; [left; now apply coef_pos|]. apply Rmult_le_pos; now apply pterm_nonneg. }
  assert (MON : forall m, confluent g k1 k2 m <= confluent g k1 k2 (S m)).
  { intros m. rewrite !confluent_value by auto. rewrite (seq_S m), sumf_app. cbn [sumf Nat.add].
    assert (A : sumf (fun i => sumf (fun j => coef g i j * (pterm k1 i * pterm k2 j)) (seq 0 m)) (seq 0 m) <=
                sumf (fun i => sumf (fun j => coef g i j * (pterm k1 i * pterm k2 j)) (seq 0 m ++ [m])) (seq 0 m)).
    { apply sumf_le. intros i _. rewrite sumf_app. cbn [sumf]. pose proof (T i m). lra. }
    assert (B : 0 <= sumf (fun j => coef g m j * (pterm k1 m * pterm k2 j)) (seq 0 m ++ [m])) by (apply sumf_nonneg; auto). lra. }
  split; [split; [apply MON|]|].
  - rewrite confluent_value by auto. set (c := 2 * g (1 / 2)). assert (CP : 0 < c) by (unfold c; rewrite <- coef_00 by auto; now apply coef_pos).
    apply Rle_trans with (sumf (fun i => pterm k1 i * (c * exp k2)) (seq 0 (S n))).
    + apply sumf_le. intros i _. apply Rle_trans with (sumf (fun j => pterm k1 i * c * pterm k2 j) (seq 0 (S n))).
      * apply sumf_le. intros j _. pose proof (coef_bound g i j G). fold c in H. pose proof (pterm_nonneg k1 i K1). pose proof (pterm_nonneg k2 j K2).
        replace (pterm k1 i * c * pterm k2 j) with (c * (pterm k1 i * pterm k2 j)) by ring. apply Rmult_le_compat_r; [now apply Rmult_le_pos|auto].
      * rewrite sumf_scal. pose proof (exp_bound k2 (S n) K2). replace (pterm k1 i * (c * exp k2)) with (pterm k1 i * c * exp k2) by ring.
        apply Rmult_le_compat_l; [apply Rmult_le_pos; [now apply pterm_nonneg|lra]|auto].
    + rewrite sumf_scal_r. rewrite exp_plus. pose proof (exp_bound k1 (S n) K1). replace (c * (exp k1 * exp k2)) with (exp k1 * (c * exp k2)) by ring.
      apply Rmult_le_compat_r; [apply Rmult_le_pos; [lra|left; apply exp_pos]|auto].
  - induction n as [|n IH]; [|eapply Rle_trans; [exact IH|apply MON]].
    rewrite confluent_value by auto. cbn [seq sumf]. rewrite coef_00 by auto. unfold pterm. cbn [fact INR pow]. rewrite Rinv_1. lra.
Qed.
Theorem C161_converges : forall g k1 k2, gamma_fun g -> 0 <= k1 -> 0 <= k2 ->
  exists l, Un_cv (confluent g k1 k2) l /\ 2 * g (1 / 2) <= l <= 2 * g (1 / 2) * exp (k1 + k2).
Proof.
  intros g k1 k2 G K1 K2. assert (GR : Un_growing (confluent g k1 k2)) by (intros n; apply (C161_increasing g k1 k2 n); auto).
  assert (UB : has_ub (confluent g k1 k2)).
  { exists (2 * g (1 / 2) * exp (k1 + k2)). intros x [n ->]. destruct (C161_increasing g k1 k2 n G K1 K2). lra. }
  destruct (growing_cv _ GR UB) as [l L]. exists l. split; [auto|]. split.
  - pose proof (growing_ineq _ _ GR L 1%nat). destruct (C161_increasing g k1 k2 0 G K1 K2). lra.
  - apply (@Rle_cv_lim (confluent g k1 k2) (fun _ => 2 * g (1 / 2) * exp (k1 + k2))); [|exact L|].
    + intros n. destruct (C161_increasing g k1 k2 n G K1 K2). lra.
    + intros e E. exists 0%nat. intros n _. rewrite R_dist_eq. exact E.
Qed.
(** with one argument zero only the other sum is left *)
Theorem C161_single : forall g k n, gamma_fun g -> (0 < n)%nat ->
  confluent g k 0 n = g (1 / 2) * sumf (fun i => k ^ i / ((INR i + 1 / 2) * INR (fact i))) (seq 0 n).
Proof.
  intros g k n G N. rewrite confluent_value by auto. rewrite <- sumf_scal. apply sumf_ext. intros i _.
  destruct n as [|n]; [lia|]. cbn [seq sumf]. rewrite (sumf_ext _ _ (fun _ => 0)).
  2:{ intros j J. apply in_seq in J. unfold pterm at 2. rewrite pow_ne_zero by lia. ring. }
  rewrite sumf_const. unfold pterm, coef. cbn [fact INR pow]. destruct G as [E P]. pose proof (pos_INR i). rewrite Rplus_0_l, Rplus_0_r.
  replace (INR i + 3 / 2) with (INR i + 1 / 2 + 1) by field. rewrite E by lra. pose proof (P (INR i + 1 / 2) ltac:(lra)). pose proof (INR_fact_neq_0 i).
  field. repeat split; auto; lra.
Qed.
(** the pair it is called with: the second argument is 1, the first at least 1 *)
Theorem C161_arguments : forall g h, 0 < vz h -> vz h < vy h -> vy h <= vx h -> exists k, 1 <= k /\ first_constant g h = Some (sqrt PI * confluent g k 1 10).
Proof.
  intros g h H2 H1 H0. unfold first_constant, concentration, fdiv. destruct (Req_EM_T (vx h) 0); [lra|]. destruct (Req_EM_T (vy h) 0); [lra|]. destruct (Req_EM_T (vz h) 0); [lra|].
  cbn [obind vx vy vz]. set (k0 := vz h * vz h / vx h - vz h * vz h / vz h). set (k1 := vz h * vz h / vy h - vz h * vz h / vz h).
  assert (IL : / vx h <= / vy h) by (apply Rinv_le_contravar; lra). assert (I2 : / vy h < / vz h) by (apply Rinv_lt_contravar; [apply Rmult_lt_0_compat; lra|lra]).
  assert (QP : 0 < vz h * vz h) by (apply Rmult_lt_0_compat; lra).
  assert (K1 : k1 < 0). { pose proof (Rmult_lt_compat_l _ _ _ QP I2). unfold k1, Rdiv. lra. }
  assert (K0 : k0 <= k1). { pose proof (Rmult_le_compat_l _ _ _ (Rlt_le _ _ QP) IL). unfold k0, k1, Rdiv. lra. }
  destruct (Req_EM_T k1 0); [lra|]. cbn [obind]. exists (k0 / k1). split.
  - replace (k0 / k1) with ((- k0) / (- k1)) by (field; lra). apply (Rmult_le_reg_r (- k1)); [lra|]. replace (- k0 / - k1 * - k1) with (- k0) by (field; lra). lra.
  - replace (k1 / k1) with 1 by (field; lra). reflexivity.
Qed.
(** equal axes: not a number *)
Theorem C161_equal_axes : forall g h, vy h = vz h -> first_constant g h = None.
Proof.
  intros g h E. unfold first_constant, concentration, fdiv. destruct (Req_EM_T (vx h) 0); [reflexivity|]. rewrite E. destruct (Req_EM_T (vz h) 0); [reflexivity|].
  cbn [obind vx vy vz]. destruct (Req_EM_T (vz h * vz h / vz h - vz h * vz h / vz h) 0) as [_|X]; [reflexivity|]. exfalso. apply X. ring.
Qed.

(** Cases. *)
Example C161_case : forall g, gamma_fun g -> confluent g 3 0 2 = g (1 / 2) * (2 + 2) /\ confluent g 3 0 0 = 0.
Proof. intros g G. split; [|reflexivity]. rewrite C161_single by (auto; lia). cbn [seq sumf fact INR pow Nat.mul Nat.add]. field. Qed.
(** the conditions on the gamma function can be met: 1 up to 1, then by the recurrence *)
Fixpoint falling (n : nat) (x : R) : R := match n with O => 1 | S m => (x - 1) * falling m (x - 1) end.
Definition steps (x : R) : nat := Z.to_nat (- Int_part (- x) - 1).
Lemma steps_spec : forall x, 0 < x -> INR (steps x) < x <= INR (steps x) + 1.
Proof.
  intros x X. unfold steps. destruct (base_Int_part (- x)) as [A B]. set (z := Int_part (- x)) in *.
  assert (z < 0)%Z by (apply lt_IZR; lra). rewrite INR_IZR_INZ, Z2Nat.id by lia. rewrite minus_IZR, opp_IZR. lra.
Qed.
Lemma steps_succ : forall x, 0 < x -> steps (x + 1) = S (steps x).
Proof.
  intros x X. pose proof (steps_spec x X). pose proof (steps_spec (x + 1) ltac:(lra)).
  assert (INR (steps (x + 1)) < INR (S (S (steps x)))) by (rewrite !S_INR; lra). assert (INR (steps x) < INR (steps (x + 1))) by lra.
  apply INR_lt in H1. apply INR_lt in H2. lia.
Qed.
Example C161_gamma : gamma_fun (fun x => falling (steps x) x).
Proof.
  split.
  - intros x X. rewrite steps_succ by auto. cbn [falling]. replace (x + 1 - 1) with x by ring. reflexivity.
  - intros x X. destruct (steps_spec x X) as [L _]. revert L. generalize (steps x). intros n. revert x X.
    induction n as [|n IH]; intros x X L; [cbn; lra|]. cbn [falling]. rewrite S_INR in L. pose proof (pos_INR n). apply Rmult_lt_0_compat; [lra|]. apply IH; lra.
Qed.
Example C161_arguments_case : forall g, exists k, 1 <= k /\ first_constant g (V3 4 2 1) = Some (sqrt PI * confluent g k 1 10).
Proof. intros g. apply C161_arguments; cbn; lra. Qed.

Print Assumptions C161_symmetric.
Print Assumptions C161_increasing.
Print Assumptions C161_converges.
Print Assumptions C161_single.
Print Assumptions C161_arguments.
Print Assumptions C161_equal_axes.
