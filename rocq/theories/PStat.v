(** C206: expected values of a regression fit. *)
From Coq Require Import Reals Lra Lia List Arith Bool Psatz FunctionalExtensionality.
From Verif Require Import RVec LNum SpecConics MConics LConics LSlice SpecLinear MAxes MLinear LLinear PLinear SpecStat.
Import ListNotations.
Open Scope R_scope.

Lemma sumn_const : forall n q, sumn n (fun _ => q) = INR n * q.
Proof. induction n; intro q; [simpl; ring|]. cbn [sumn]. rewrite IHn, S_INR. ring. Qed.

Section Moments.
Variables (r N : nat) (p : vecn) (e : matn) (s2 : R).

Lemma expect_plus : forall X Y, expect N p (fun w => X w + Y w) = expect N p X + expect N p Y.
Proof. intros. unfold expect. rewrite <- sumn_plus. apply sumn_ext. intros; ring. Qed.
Lemma expect_scal : forall k X, expect N p (fun w => k * X w) = k * expect N p X.
Proof. intros. unfold expect. rewrite <- sumn_scal. apply sumn_ext. intros; ring. Qed.
Lemma expect_ext : forall X Y, (forall w, X w = Y w) -> expect N p X = expect N p Y.
Proof. intros X Y H. apply sumn_ext. intros. now rewrite H. Qed.
Lemma expect_sum : forall k X, expect N p (fun w => sumn k (fun i => X w i)) = sumn k (fun i => expect N p (fun w => X w i)).
Proof.
  intros k X. unfold expect. rewrite <- sumn_swap. apply sumn_ext. intros. now rewrite sumn_scal.
Qed.
Lemma expect_const : distribution N p -> forall c, expect N p (fun _ => c) = c.
Proof. intros [_ H] c. unfold expect. rewrite sumn_scal_r, H. ring. Qed.

Lemma expect_linear : zero_mean r N p e -> forall L, expect N p (fun w => dotn r L (e w)) = 0.
Proof.
  intros Z L. unfold dotn. rewrite expect_sum. apply sumn_0. intros i I. rewrite expect_scal, (Z i I). ring.
Qed.
Lemma expect_product : uncorrelated r N p e s2 -> forall L M,
  expect N p (fun w => dotn r L (e w) * dotn r M (e w)) = s2 * dotn r L M.
Proof.
  intros U L M. unfold dotn.
  rewrite (expect_ext _ (fun w => sumn r (fun i => sumn r (fun j => L i * M j * (e w i * e w j))))).
  2:{ intros w. rewrite <- sumn_scal_r. apply sumn_ext. intros i I. rewrite <- sumn_scal. apply sumn_ext. intros; ring. }
  rewrite expect_sum, <- sumn_scal. apply sumn_ext. intros i I. rewrite expect_sum.
  rewrite (sumn_ext _ _ (fun j => (if (j =? i)%nat then 1 else 0) * (s2 * (L i * M j)))).
  - now rewrite sumn_delta by auto.
  - intros j J. rewrite expect_scal, (U i j I J), Nat.eqb_sym. destruct (j =? i)%nat; ring.
Qed.
End Moments.

Section Fit.
Variables (inv : inv_fn) (r : nat) (x y : vecn) (a b c : R).
Hypothesis (HI : numpy_inv inv) (R0 : (0 < r)%nat).
Let A0 := measured x y a b c (fun _ => 0).
Let C : matn := fun i j => if (j <? 2)%nat then centered_nd r A0 i j else 1.
Let G := matrix_squared r C.
Variable B : matn.
Hypothesis HB : is_inverse 3 G B.
Let t : vecn := fun j => match j with O => a | 1%nat => b | _ => 0 end.
Definition weightn (B : matn) (C : matn) (j i : nat) : R := mulv 3 B (C i) j.
Let W := weightn B C.

Lemma weight_apply : forall Z j, mulv 3 B (mulv r (trn C) Z) j = dotn r (W j) Z.
Proof.
  intros Z j. unfold dotn, W, weightn, mulv, trn. rewrite sumn3, <- !sumn_scal, <- !sumn_plus. apply sumn_ext. intros i I.
  rewrite sumn3. ring.
Qed.
Lemma weight_design : forall j k, (j < 3)%nat -> (k < 3)%nat -> sumn r (fun i => W j i * C i k) = if (j =? k)%nat then 1 else 0.
Proof.
  intros j k J K. change (sumn r (fun i => W j i * C i k)) with (dotn r (W j) (fun i => C i k)). rewrite <- weight_apply.
  destruct HB as [_ H]. specialize (H j k J K). unfold idn in H. rewrite <- H. reflexivity.
Qed.
Lemma B_sym : symmetric 3 B.
Proof. apply (inverse_symmetric 3 G B); auto. apply gram_symmetric. Qed.
Lemma weight_weight : forall j k, (j < 3)%nat -> (k < 3)%nat -> dotn r (W j) (W k) = B j k.
Proof.
  intros j k J K. unfold dotn. rewrite (sumn_ext _ _ (fun i => B k 0%nat * (W j i * C i 0%nat) + B k 1%nat * (W j i * C i 1%nat) + B k 2%nat * (W j i * C i 2%nat))).
  2:{ intros i I. unfold W at 2, weightn, mulv. rewrite sumn3. ring. }
  rewrite !sumn_plus, !sumn_scal, !weight_design by lia. rewrite (B_sym j k J K). unfold trn.
  destruct j as [|[|[|j]]]; try lia; cbn [Nat.eqb]; ring.
Qed.

Lemma same_design : forall e, (fun i j => if (j <? 2)%nat then centered_nd r (measured x y a b c e) i j else 1) = C.
Proof.
  intros e. apply functional_extensionality. intros i. apply functional_extensionality. intros j. unfold C.
  destruct j as [|[|j]]; reflexivity.
Qed.
Lemma rhs : forall e i, centered_nd r (measured x y a b c e) i 2%nat = mulv 3 C t i + (e i - sumn r e / INR r).
Proof.
  intros e i. pose proof (lt_0_INR r R0) as P. unfold mulv. rewrite sumn3. unfold C, t, centered_nd, A0. cbn [Nat.ltb Nat.leb measured].
  rewrite !sumn_plus, !sumn_scal.
  assert (K : sumn r (fun _ => c) = INR r * c).
  { apply sumn_const. }
  rewrite K. change (fun k => x k) with x. change (fun k => y k) with y. field. lra.
Qed.

Variable e : vecn.
Let Z : vecn := fun i => centered_nd r (measured x y a b c e) i 2%nat.
Let m := mulv 3 B (mulv r (trn C) Z).
Let d := sumn r e / INR r.

Lemma dev : forall j, (j < 2)%nat -> m j - t j = dotn r (W j) e.
Proof.
  intros j J. unfold m. rewrite weight_apply. unfold dotn.
  rewrite (sumn_ext _ _ (fun i => (t 0%nat * (W j i * C i 0%nat) + t 1%nat * (W j i * C i 1%nat) + t 2%nat * (W j i * C i 2%nat)) + (W j i * e i - d * (W j i * C i 2%nat)))).
  2:{ intros i I. unfold Z. rewrite rhs. fold d. unfold mulv. rewrite sumn3. unfold C at 7. cbn [Nat.ltb Nat.leb]. ring. }
  rewrite sumn_plus, sumn_minus, !sumn_plus, !sumn_scal, !weight_design by lia.
  destruct j as [|[|j]]; try lia; cbn [Nat.eqb]; unfold t; ring.
Qed.
Lemma dev2 : m 2%nat = 0.
Proof. 
  destruct (intercept r (measured x y a b c e) R0 B) as (_ & _ & _ & _ & _ & H).
  - rewrite same_design. exact HB.
  - rewrite same_design in H. exact H.
Qed.
Lemma B_blocks : B 0%nat 2%nat = 0 /\ B 1%nat 2%nat = 0 /\ B 2%nat 0%nat = 0 /\ B 2%nat 1%nat = 0.
Proof. destruct (intercept r A0 R0 B HB) as (? & ? & ? & ? & _ & _). auto. Qed.
Lemma sse_value : dotn r (gap 3 C Z m) (gap 3 C Z m) =
  sumn r (fun i => e i * e i) - INR r * (d * d) -
  (G 0%nat 0%nat * ((m 0%nat - a) * (m 0%nat - a)) + G 0%nat 1%nat * ((m 0%nat - a) * (m 1%nat - b)) +
   G 1%nat 0%nat * ((m 1%nat - b) * (m 0%nat - a)) + G 1%nat 1%nat * ((m 1%nat - b) * (m 1%nat - b))).
Proof.
  pose proof (sse_split r 3 C Z B HB t) as S. fold m in S. cbv zeta in S.
  rewrite <- gram_quad in S. fold G in S. unfold mulv in S. rewrite !sumn3 in S. rewrite dev2 in S. unfold t in S.
  assert (L : dotn r (gap 3 C Z (fun j => match j with O => a | 1%nat => b | _ => 0 end)) (gap 3 C Z (fun j => match j with O => a | 1%nat => b | _ => 0 end))
    = sumn r (fun i => e i * e i) - INR r * (d * d)).
  { unfold dotn, gap. rewrite (sumn_ext _ _ (fun i => e i * e i - 2 * d * e i + d * d)).
    2:{ intros i I. unfold Z. rewrite rhs. fold d. fold t. ring. }
    rewrite sumn_plus, sumn_minus, sumn_scal.
    assert (K : forall q, sumn r (fun _ => q) = INR r * q).
    { intro q. apply sumn_const. }
    rewrite K. assert (D : sumn r e = INR r * d) by (unfold d; field; apply Rgt_not_eq, lt_0_INR; auto). rewrite D. ring. }
  rewrite L in S. lra.
Qed.
End Fit.

Lemma measured_collinear : forall r x y a b c e, collinear_xy r (measured x y a b c e) <-> collinear_xy r (measured x y a b c (fun _ => 0)).
Proof. intros. split; intros (u & v & w & NZ & H); exists u, v, w; split; auto. Qed.

(** all outcomes share the design, so one inverse serves all *)
Lemma all_fits : forall inv r x y a b c, numpy_inv inv -> (0 < r)%nat -> ~ collinear_xy r (measured x y a b c (fun _ => 0)) ->
  let C := fun i j => if (j <? 2)%nat then centered_nd r (measured x y a b c (fun _ => 0)) i j else 1 in
  exists B, is_inverse 3 (matrix_squared r C) B /\ forall e,
  let Z := fun i => centered_nd r (measured x y a b c e) i 2%nat in let m := mulv 3 B (mulv r (trn C) Z) in
  rbind (Regression r 3 (measured x y a b c e)) (coefs inv) = Ok m /\
  rbind (Regression r 3 (measured x y a b c e)) (covariance inv) =
    Ok (if (r =? 3)%nat then fun _ _ => 0 else fun i j => dotn r (gap 3 C Z m) (gap 3 C Z m) * B i j).
Proof.
  intros inv r x y a b c HI R0 NC C.
  destruct (coefs_cases inv r (measured x y a b c (fun _ => 0)) HI R0) as [P _]. destruct (P NC) as (B & EX & HB & _). clear P.
  fold C in EX, HB. exists B. split; auto. intros e Z m.
  rewrite (reg3 r (measured x y a b c e) R0), same_design. fold C. fold Z. cbn [rbind].
  assert (EX' : xTx inv {| g_n := r; g_k := 3; g_C := C; g_Z := Z |} = Ok B) by exact EX.
  assert (EC : coefs inv {| g_n := r; g_k := 3; g_C := C; g_Z := Z |} = Ok m) by (unfold coefs; rewrite EX'; reflexivity).
  split; auto. unfold covariance, reg_residuals. rewrite EC, EX'. cbn [rbind g_n g_k g_C g_Z]. destruct (r =? 3)%nat; reflexivity.
Qed.

(** Errors of mean zero: the expected slopes are the true ones. *)
Theorem C206_unbiased : forall inv r x y a b c N p e, numpy_inv inv -> (0 < r)%nat ->
  ~ collinear_xy r (measured x y a b c (fun _ => 0)) -> distribution N p -> zero_mean r N p e ->
  exists m : nat -> vecn,
    (forall w, rbind (Regression r 3 (measured x y a b c (e w))) (coefs inv) = Ok (m w)) /\
    expect N p (fun w => m w 0%nat) = a /\ expect N p (fun w => m w 1%nat) = b.
Proof.
  intros inv r x y a b c N p e HI R0 NC D Z. destruct (all_fits inv r x y a b c HI R0 NC) as (B & HB & F). cbv zeta in F.
  eexists. split; [intro w; apply (F (e w))|]. cbv beta.
  assert (V : forall j, (j < 2)%nat -> expect N p (fun w => mulv 3 B (mulv r (trn (fun i j => if (j <? 2)%nat then centered_nd r (measured x y a b c (fun _ => 0)) i j else 1))
     (fun i => centered_nd r (measured x y a b c (e w)) i 2%nat)) j) = slope a b j).
  { intros j J. pose proof (fun w => dev r x y a b c R0 B HB (e w) j J) as DV. cbv zeta in DV.
    rewrite (expect_ext N p _ (fun w => slope a b j + dotn r (weightn B (fun i j => if (j <? 2)%nat then centered_nd r (measured x y a b c (fun _ => 0)) i j else 1) j) (e w))).
    - rewrite expect_plus, (expect_const _ _ D), (expect_linear r N p e Z). ring.
    - intros w. rewrite <- DV. destruct j as [|[|j]]; try lia; unfold slope; ring. }
  split; apply V; lia.
Qed.

(** Uncorrelated errors of one variance: what is reported as the covariance is, on
    average, that of the slopes times the degrees of freedom. *)
Theorem C206_covariance : forall inv r x y a b c N p e s2, numpy_inv inv -> (0 < r)%nat ->
  ~ collinear_xy r (measured x y a b c (fun _ => 0)) -> uncorrelated r N p e s2 ->
  exists (m : nat -> vecn) (V : nat -> matn) (B : matn),
    (forall w, rbind (Regression r 3 (measured x y a b c (e w))) (coefs inv) = Ok (m w)) /\
    (forall w, rbind (Regression r 3 (measured x y a b c (e w))) (covariance inv) = Ok (V w)) /\
    is_inverse 3 (normal_matrix r (measured x y a b c (fun _ => 0))) B /\
    forall i j, (i < 2)%nat -> (j < 2)%nat ->
      expect N p (fun w => (m w i - slope a b i) * (m w j - slope a b j)) = s2 * B i j /\
      (r <> 3%nat -> expect N p (fun w => V w i j) =
         (INR r - 3) * expect N p (fun w => (m w i - slope a b i) * (m w j - slope a b j))) /\
      (r = 3%nat -> forall w, V w i j = 0).
Proof.
  intros inv r x y a b c N p e s2 HI R0 NC U. destruct (all_fits inv r x y a b c HI R0 NC) as (B & HB & F). cbv zeta in F.
  set (C := fun i j => if (j <? 2)%nat then centered_nd r (measured x y a b c (fun _ => 0)) i j else 1) in *.
  set (Z := fun w i => centered_nd r (measured x y a b c (e w)) i 2%nat).
  set (m := fun w => mulv 3 B (mulv r (trn C) (Z w))).
  set (V := fun w => if (r =? 3)%nat then fun _ _ => 0 else fun i j => dotn r (gap 3 C (Z w) (m w)) (gap 3 C (Z w) (m w)) * B i j).
  exists m, V, B. split; [intro w; apply (F (e w))|]. split; [intro w; apply (F (e w))|].
  split. { eapply inverse_ext; [apply meq_sym, normal_matrix_ok|apply meq_refl|exact HB]. }
  assert (DV : forall w j, (j < 2)%nat -> m w j - slope a b j = dotn r (weightn B C j) (e w)).
  { intros w j J. pose proof (dev r x y a b c R0 B HB (e w) j J) as D. unfold C. rewrite <- D. destruct j as [|[|j]]; try lia; reflexivity. }
  assert (CV : forall i j, (i < 2)%nat -> (j < 2)%nat -> expect N p (fun w => (m w i - slope a b i) * (m w j - slope a b j)) = s2 * B i j).
  { intros i j I J. rewrite (expect_ext N p _ (fun w => dotn r (weightn B C i) (e w) * dotn r (weightn B C j) (e w))).
    - rewrite (expect_product r N p e s2 U). f_equal. apply (weight_weight r x y a b c R0 B HB); lia.
    - intros w. rewrite !DV by auto. reflexivity. }
  intros i j I J. split; auto. split.
  2:{ intros E w. unfold V. rewrite E. reflexivity. }
  intros NE. rewrite CV by auto. unfold V. destruct (Nat.eqb_spec r 3) as [|_]; [contradiction|].
  set (G := matrix_squared r C) in *.
  assert (SV : forall w, dotn r (gap 3 C (Z w) (m w)) (gap 3 C (Z w) (m w)) =
     sumn r (fun i => e w i * e w i) + - INR r * (dotn r (fun _ => / INR r) (e w) * dotn r (fun _ => / INR r) (e w)) +
     (- G 0%nat 0%nat * ((m w 0%nat - slope a b 0) * (m w 0%nat - slope a b 0)) + - G 0%nat 1%nat * ((m w 0%nat - slope a b 0) * (m w 1%nat - slope a b 1)) +
      (- G 1%nat 0%nat * ((m w 1%nat - slope a b 1) * (m w 0%nat - slope a b 0)) + - G 1%nat 1%nat * ((m w 1%nat - slope a b 1) * (m w 1%nat - slope a b 1))))).
  { intros w. pose proof (sse_value r x y a b c R0 B HB (e w)) as S. cbv zeta in S. fold C in S. fold (Z w) in S. fold (m w) in S. fold G in S.
    rewrite S. assert (D : dotn r (fun _ => / INR r) (e w) = sumn r (e w) / INR r).
    { unfold dotn. rewrite sumn_scal. change (fun i => e w i) with (e w). unfold Rdiv. ring. }
    rewrite D. unfold slope. ring. }
  rewrite (expect_ext N p _ (fun w => B i j * dotn r (gap 3 C (Z w) (m w)) (gap 3 C (Z w) (m w)))) by (intros; ring).
  rewrite expect_scal, (expect_ext N p _ _ SV), !expect_plus, !expect_scal, !CV by lia.
  rewrite (expect_product r N p e s2 U), expect_sum.
  rewrite (sumn_ext r (fun i => expect N p (fun w => e w i * e w i)) (fun _ => s2)).
  2:{ intros k K. rewrite (U k k K K), Nat.eqb_refl. reflexivity. }
  assert (K : forall q, sumn r (fun _ => q) = INR r * q).
  { intro q. apply sumn_const. }
  unfold dotn. rewrite !K. pose proof (lt_0_INR r R0) as RP.
  destruct (intercept r (measured x y a b c (fun _ => 0)) R0 B HB) as (_ & _ & B20 & B21 & _ & _).
  destruct HB as [HG _]. pose proof (HG 0%nat 0%nat ltac:(lia) ltac:(lia)) as G0. pose proof (HG 1%nat 1%nat ltac:(lia) ltac:(lia)) as G1.
  unfold mulm in G0, G1. rewrite sumn3 in G0, G1. rewrite B20 in G0. rewrite B21 in G1. unfold idn in G0, G1. cbn [Nat.eqb] in G0, G1.
  fold G in G0, G1.
  replace (INR r * (/ INR r * / INR r)) with (/ INR r) by (field; lra).
  replace (- INR r * (s2 * / INR r)) with (- s2) by (field; lra).
  assert (T : G 0%nat 0%nat * B 0%nat 0%nat + G 0%nat 1%nat * B 1%nat 0%nat = 1) by lra.
  assert (T' : G 1%nat 0%nat * B 0%nat 1%nat + G 1%nat 1%nat * B 1%nat 1%nat = 1) by lra.
  assert (SY : symmetric 3 G) by (apply gram_symmetric).
  assert (G10 : G 1%nat 0%nat = G 0%nat 1%nat) by (apply (SY 1%nat 0%nat); lia).
  rewrite G10 in *.
  transitivity (B i j * (INR r * s2 + - s2 - s2 * ((G 0%nat 0%nat * B 0%nat 0%nat + G 0%nat 1%nat * B 1%nat 0%nat) + (G 0%nat 1%nat * B 0%nat 1%nat + G 1%nat 1%nat * B 1%nat 1%nat)))); [ring|].
  rewrite T, T'. ring.
Qed.

(** No other linear rule that is right for every plane has smaller variance. *)
Theorem C206_best : forall inv r x y a b c N p e s2 u v L, numpy_inv inv -> (0 < r)%nat ->
  ~ collinear_xy r (measured x y a b c (fun _ => 0)) -> uncorrelated r N p e s2 -> 0 <= s2 ->
  (forall a' b' c', dotn r L (fun i => measured x y a' b' c' (fun _ => 0) i 2%nat) = u * a' + v * b') ->
  exists m : nat -> vecn,
    (forall w, rbind (Regression r 3 (measured x y a b c (e w))) (coefs inv) = Ok (m w)) /\
    expect N p (fun w => Rsqr (u * m w 0%nat + v * m w 1%nat - (u * a + v * b))) <=
    expect N p (fun w => Rsqr (dotn r L (fun i => measured x y a b c (e w) i 2%nat) - (u * a + v * b))).
Proof.
  intros inv r x y a b c N p e s2 u v L HI R0 NC U S0 HL. destruct (all_fits inv r x y a b c HI R0 NC) as (B & HB & F). cbv zeta in F.
  set (C := fun i j => if (j <? 2)%nat then centered_nd r (measured x y a b c (fun _ => 0)) i j else 1) in *.
  set (Z := fun w i => centered_nd r (measured x y a b c (e w)) i 2%nat).
  set (m := fun w => mulv 3 B (mulv r (trn C) (Z w))).
  exists m. split; [intro w; apply (F (e w))|].
  set (M := fun i => u * weightn B C 0 i + v * weightn B C 1 i).
  assert (DV : forall w j, (j < 2)%nat -> m w j - slope a b j = dotn r (weightn B C j) (e w)).
  { intros w j J. pose proof (dev r x y a b c R0 B HB (e w) j J) as D. unfold C. rewrite <- D. destruct j as [|[|j]]; try lia; reflexivity. }
  rewrite (expect_ext N p _ (fun w => dotn r M (e w) * dotn r M (e w))).
  2:{ intros w. unfold Rsqr. assert (E : u * m w 0%nat + v * m w 1%nat - (u * a + v * b) = dotn r M (e w)).
      { pose proof (DV w 0%nat ltac:(lia)) as D0. pose proof (DV w 1%nat ltac:(lia)) as D1. cbn [slope] in D0, D1.
        transitivity (u * dotn r (weightn B C 0) (e w) + v * dotn r (weightn B C 1) (e w)); [rewrite <- D0, <- D1; ring|].
        unfold dotn, M. rewrite <- !sumn_scal, <- sumn_plus. apply sumn_ext. intros; ring. }
      now rewrite E. }
  rewrite (expect_ext N p (fun w => Rsqr (dotn r L _ - _)) (fun w => dotn r L (e w) * dotn r L (e w))).
  2:{ intros w. unfold Rsqr. assert (E : dotn r L (fun i => measured x y a b c (e w) i 2%nat) - (u * a + v * b) = dotn r L (e w)).
      { rewrite <- (HL a b c). unfold dotn. rewrite <- sumn_minus. apply sumn_ext. intros i I. unfold measured. ring. }
      now rewrite E. }
  rewrite !(expect_product r N p e s2 U). apply Rmult_le_compat_l; auto.
  assert (LX : dotn r L x = u).
  { pose proof (HL 1 0 0) as H. rewrite <- (Rplus_0_r u). replace (u + 0) with (u * 1 + v * 0) by ring. rewrite <- H.
    apply sumn_ext. intros; unfold measured; ring. }
  assert (LY : dotn r L y = v).
  { pose proof (HL 0 1 0) as H. replace v with (u * 0 + v * 1) by ring. rewrite <- H. apply sumn_ext. intros; unfold measured; ring. }
  assert (L1 : sumn r L = 0).
  { pose proof (HL 0 0 1) as H. replace 0 with (u * 0 + v * 0) by ring. rewrite <- H. apply sumn_ext. intros; unfold measured; ring. }
  assert (LC : forall k, (k < 3)%nat -> dotn r L (fun i => C i k) = match k with O => u | 1%nat => v | _ => 0 end).
  { intros k K. unfold dotn. destruct k as [|[|[|k]]]; try lia; unfold C; cbn [Nat.ltb Nat.leb]; unfold centered_nd.
    - rewrite (sumn_ext _ _ (fun i => L i * x i - sumn r x / INR r * L i)) by (intros; unfold measured; change (fun k => x k) with x; ring).
      rewrite sumn_minus, sumn_scal. change (sumn r (fun i => L i)) with (sumn r L). rewrite L1. fold (dotn r L x). rewrite LX. ring.
    - rewrite (sumn_ext _ _ (fun i => L i * y i - sumn r y / INR r * L i)) by (intros; unfold measured; change (fun k => y k) with y; ring).
      rewrite sumn_minus, sumn_scal. change (sumn r (fun i => L i)) with (sumn r L). rewrite L1. fold (dotn r L y). rewrite LY. ring.
    - rewrite (sumn_ext _ _ L) by (intros; ring). exact L1. }
  assert (CM : forall X, dotn r M X = u * dotn r (weightn B C 0) X + v * dotn r (weightn B C 1) X).
  { intros X. unfold dotn, M. rewrite <- !sumn_scal, <- sumn_plus. apply sumn_ext. intros; ring. }
  assert (LW : forall j, (j < 3)%nat -> dotn r L (weightn B C j) = B j 0%nat * u + B j 1%nat * v).
  { intros j J. transitivity (B j 0%nat * dotn r L (fun i => C i 0%nat) + B j 1%nat * dotn r L (fun i => C i 1%nat) + B j 2%nat * dotn r L (fun i => C i 2%nat)).
    - unfold dotn, weightn, mulv. rewrite <- !sumn_scal, <- !sumn_plus. apply sumn_ext. intros i I. rewrite sumn3. ring.
    - rewrite !LC by lia. ring. }
  assert (ML : dotn r M L = dotn r M M).
  { rewrite CM, CM. rewrite !(dotn_comm r (weightn B C _) M), !CM. rewrite !(dotn_comm r (weightn B C _) L), !LW by lia.
    pose proof (weight_weight r x y a b c R0 B HB) as WW. fold C in WW. rewrite !WW by lia. ring. }
  assert (P : 0 <= dotn r (fun i => L i - M i) (fun i => L i - M i)) by (apply sumn_nonneg; intros; apply Rle_0_sqr).
  assert (Q : dotn r (fun i => L i - M i) (fun i => L i - M i) = dotn r L L - 2 * dotn r M L + dotn r M M).
  { unfold dotn. rewrite <- sumn_scal, <- sumn_minus, <- sumn_plus. apply sumn_ext. intros; ring. }
  rewrite Q, ML in P. lra.
Qed.

(** Uncorrelated errors exist for any number of points: in each of 2 r equally likely
    outcomes one point is off, upwards or downwards. *)
Definition one_off (r : nat) (w i : nat) : R := if (w / 2 =? i)%nat then (if Nat.even w then 1 else -1) else 0.
Example C206_ex : distribution 8 (fun _ => 1/8) /\ zero_mean 4 8 (fun _ => 1/8) (one_off 4) /\
  uncorrelated 4 8 (fun _ => 1/8) (one_off 4) (1/4) /\
  ~ collinear_xy 4 (measured (fun i => nth i [1; -1; 0; 0] 0) (fun i => nth i [0; 0; 1; -1] 0) 2 3 5 (fun _ => 0)) /\
  (forall a b c, dotn 4 (fun i => nth i [1/2; -1/2; 0; 0] 0) (fun i => measured (fun i => nth i [1; -1; 0; 0] 0) (fun i => nth i [0; 0; 1; -1] 0) a b c (fun _ => 0) i 2%nat) = 1 * a + 0 * b).
Proof.
  split. { split; [intros; lra|]. cbn [sumn]. lra. }
  split. { intros i I. unfold expect. destruct i as [|[|[|[|i]]]]; try lia; cbn; lra. }
  split. { intros i j I J. unfold expect. destruct i as [|[|[|[|i]]]]; try lia; destruct j as [|[|[|[|j]]]]; try lia; cbn; lra. }
  split.
  { intros (u & v & w & NZ & H). pose proof (H 0%nat ltac:(lia)) as H0. pose proof (H 1%nat ltac:(lia)) as H1. pose proof (H 2%nat ltac:(lia)) as H2.
    cbn in H0, H1, H2. lra. }
  intros a b c. unfold dotn. cbn. field.
Qed.

Print Assumptions C206_unbiased.
Print Assumptions C206_covariance.
Print Assumptions C206_best.
