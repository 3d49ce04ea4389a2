(** Properties C78-C80, C107, C108: regression fits. *)
From Coq Require Import Reals Lra Lia List Arith Bool Psatz.
From Verif Require Import RVec Trig SpecPlane LNum SpecConics MConics LConics LSlice SpecLinear MAxes MLinear LLinear
  MPca LPca LFit LFit2 LAngles PPca.
Import ListNotations.
Notation length := List.length.
Open Scope R_scope.

(** ** the design matrix of an n x 3 array *)
Lemma reg3 : forall r A, (0 < r)%nat -> Regression r 3 A = Ok {| g_n := r; g_k := 3;
  g_C := fun i j => if (j <? 2)%nat then centered_nd r A i j else 1; g_Z := fun i => centered_nd r A i 2%nat |}.
Proof. intros r A R. unfold Regression. destruct (Nat.eqb_spec r 0); [lia|]. reflexivity. Qed.
Lemma INR0 : forall r, (0 < r)%nat -> 0 < INR r. Proof. intros. now apply lt_0_INR. Qed.
Lemma centred_sum : forall r A j, (0 < r)%nat -> sumn r (fun i => centered_nd r A i j) = 0.
Proof.
  intros r A j R. unfold centered_nd. rewrite sumn_minus.
  assert (K : forall n c, sumn n (fun _ => c) = INR n * c).
  { induction n; intros c; [simpl; ring|]. cbn [sumn]. rewrite IHn, S_INR. ring. }
  rewrite (K r). field. pose proof (INR0 r R). lra.
Qed.
Section Fit3.
Variables (inv : inv_fn) (r : nat) (A : matn).
Hypothesis (HI : numpy_inv inv) (R0 : (0 < r)%nat).
Let C : matn := fun i j => if (j <? 2)%nat then centered_nd r A i j else 1.
Let Z : vecn := fun i => centered_nd r A i 2%nat.
Let g := {| g_n := r; g_k := 3; g_C := C; g_Z := Z |}.
Let G := matrix_squared r C.
Let xm := col_mean r A 0. Let ym := col_mean r A 1. Let zm := col_mean r A 2.

Lemma design_mulv : forall m i, mulv 3 C m i = m 0%nat * (A i 0%nat - xm) + m 1%nat * (A i 1%nat - ym) + m 2%nat.
Proof. intros m i. unfold mulv. rewrite sumn3. unfold C. cbn [Nat.ltb Nat.leb]. unfold centered_nd, xm, ym, col_mean. ring. Qed.
Lemma gap_vsse : forall m, dotn r (gap 3 C Z m) (gap 3 C Z m) =
  vsse r A (m 0%nat) (m 1%nat) (zm - m 0%nat * xm - m 1%nat * ym + m 2%nat).
Proof.
  intros m. unfold dotn, vsse. apply sumn_ext. intros i I. unfold gap. rewrite design_mulv. unfold Z, centered_nd. fold (col_mean r A 2%nat).
  fold zm. cbv zeta. ring.
Qed.
Lemma design_rank : invertible 3 G <-> ~ collinear_xy r A.
Proof.
  unfold G. rewrite gram_invertible. split.
  - intros H (u & v & w & NZ & E). set (x := fun j => match j with O => u | 1%nat => v | _ => u * xm + v * ym - w end).
    assert (K : veq 3 x (fun _ => 0)).
    { apply H. intros i I. rewrite design_mulv. cbn [x]. specialize (E i I). unfold x. lra. }
    pose proof (K 0%nat ltac:(lia)) as K0. pose proof (K 1%nat ltac:(lia)) as K1. cbn in K0, K1. tauto.
  - intros NC x K. assert (K0 : x 0%nat = 0 /\ x 1%nat = 0).
    { destruct (Req_EM_T (x 0%nat) 0) as [e0|n0]; [destruct (Req_EM_T (x 1%nat) 0) as [e1|n1]; auto|]; exfalso; apply NC;
        exists (x 0%nat), (x 1%nat), (x 0%nat * xm + x 1%nat * ym - x 2%nat); (split; [auto|]); intros i I;
        specialize (K i I); rewrite design_mulv in K; lra. }
    destruct K0 as [K0 K1]. specialize (K 0%nat R0). rewrite design_mulv, K0, K1 in K.
    intros [|[|[|j]]] J; auto; try lia. lra.
Qed.
Lemma xTx_cases : (~ collinear_xy r A -> exists B, xTx inv g = Ok B /\ is_inverse 3 G B) /\
  (collinear_xy r A -> xTx inv g = Raise LinAlgError).
Proof.
  unfold xTx. cbn [g_k g_n g_C g]. fold G. pose proof (HI 3%nat G) as H. pose proof design_rank as D. split; intros N.
  - destruct (inv 3%nat G) as [B|]; [eauto|]. exfalso. apply H, D, N.
  - destruct (inv 3%nat G) as [B|]; auto. exfalso. exact (proj1 D (ex_intro _ B H) N).
Qed.
Lemma coefs_cases : (~ collinear_xy r A -> exists B, xTx inv g = Ok B /\ is_inverse 3 G B /\
    coefs inv g = Ok (mulv 3 B (mulv r (trn C) Z))) /\
  (collinear_xy r A -> coefs inv g = Raise LinAlgError).
Proof.
  destruct xTx_cases as [P Q]. unfold coefs. split; intros N.
  - destruct (P N) as (B & E & HB). exists B. rewrite E. auto.
  - now rewrite Q.
Qed.
(** centred data: the third coefficient is independent of the others and zero *)
Lemma intercept : forall B, is_inverse 3 G B -> B 0%nat 2%nat = 0 /\ B 1%nat 2%nat = 0 /\ B 2%nat 0%nat = 0 /\ B 2%nat 1%nat = 0 /\ B 2%nat 2%nat = / INR r /\
  mulv 3 B (mulv r (trn C) Z) 2%nat = 0.
Proof.
  intros B HB. pose proof (INR0 r R0) as RP.
  assert (GC : forall i, (i < 3)%nat -> G i 2%nat = if (i =? 2)%nat then INR r else 0).
  { intros i I. unfold G, matrix_squared, mulm, trn, C. destruct i as [|[|[|i]]]; try lia; cbn [Nat.ltb Nat.leb Nat.eqb].
    - rewrite (sumn_ext _ _ (fun l => centered_nd r A l 0%nat)) by (intros; ring). now apply centred_sum.
    - rewrite (sumn_ext _ _ (fun l => centered_nd r A l 1%nat)) by (intros; ring). now apply centred_sum.
    - assert (K : forall n, sumn n (fun _ => 1 * 1) = INR n).
      { induction n; [reflexivity|]. cbn [sumn]. rewrite IHn, S_INR. ring. } apply K. }
  assert (BC : forall i, (i < 3)%nat -> B i 2%nat = if (i =? 2)%nat then / INR r else 0).
  { intros i I. destruct HB as [_ HB]. specialize (HB i 2%nat I ltac:(lia)). unfold mulm in HB. rewrite sumn3 in HB.
    rewrite !GC in HB by lia. cbn [Nat.eqb] in HB. unfold idn in HB. apply Rmult_eq_reg_r with (INR r); [|lra].
    destruct (Nat.eqb i 2); [rewrite Rinv_l by lra|]; lra. }
  pose proof (inverse_symmetric 3 G B (gram_symmetric r 3 C) HB) as SY.
  assert (B0 := BC 0%nat ltac:(lia)). assert (B1 := BC 1%nat ltac:(lia)). assert (B2 := BC 2%nat ltac:(lia)). cbn [Nat.eqb] in B0, B1, B2.
  assert (S0 : B 2%nat 0%nat = 0) by (rewrite (SY 2%nat 0%nat) by lia; exact B0).
  assert (S1 : B 2%nat 1%nat = 0) by (rewrite (SY 2%nat 1%nat) by lia; exact B1).
  repeat split; auto. unfold mulv at 1. rewrite sumn3, S0, S1.
  assert (ZS : mulv r (trn C) Z 2%nat = 0).
  { unfold mulv, trn, C. cbn [Nat.ltb Nat.leb]. rewrite (sumn_ext _ _ (fun l => centered_nd r A l 2%nat)) by (intros; unfold Z; ring). now apply centred_sum. }
  rewrite ZS. ring.
Qed.
End Fit3.

(** * C78 *)
Theorem C78_defined : forall inv r A, numpy_inv inv -> (0 < r)%nat ->
  (collinear_xy r A <-> rbind (Regression r 3 A) (coefs inv) = Raise LinAlgError) /\
  (~ collinear_xy r A <-> exists m, rbind (Regression r 3 A) (coefs inv) = Ok m).
Proof.
  intros inv r A HI R0. rewrite (reg3 r A R0). cbn [rbind].
  destruct (coefs_cases inv r A HI R0) as [P Q].
  assert (D : collinear_xy r A \/ ~ collinear_xy r A).
  { destruct (inverse_dec 3 (matrix_squared r (fun i j => if (j <? 2)%nat then centered_nd r A i j else 1))) as [[B HB]|N].
    - right. apply design_rank; auto. now exists B.
    - destruct (Classical_Prop.classic (collinear_xy r A)); auto. }
  split; split; intros H.
  - auto.
  - destruct D as [D|D]; auto. destruct (P D) as (B & _ & _ & E). rewrite E in H. discriminate.
  - destruct (P H) as (B & _ & _ & E). rewrite E. eauto.
  - intros K. destruct H as [m H]. rewrite (Q K) in H. discriminate.
Qed.
(** the slopes, with the intercept that puts the mean on the plane, are the unique
    minimiser over all planes of the original, uncentred points *)
Theorem C78_least_squares : forall inv r A m, numpy_inv inv -> (0 < r)%nat ->
  rbind (Regression r 3 A) (coefs inv) = Ok m ->
  let c0 := col_mean r A 2 - m 0%nat * col_mean r A 0 - m 1%nat * col_mean r A 1 in
  m 2%nat = 0 /\ forall a b c, vsse r A (m 0%nat) (m 1%nat) c0 <= vsse r A a b c /\
  (vsse r A a b c <= vsse r A (m 0%nat) (m 1%nat) c0 -> a = m 0%nat /\ b = m 1%nat /\ c = c0).
Proof.
  intros inv r A m HI R0 H c0. rewrite (reg3 r A R0) in H. cbn [rbind] in H.
  destruct (coefs_cases inv r A HI R0) as [P Q].
  destruct (Classical_Prop.classic (collinear_xy r A)) as [K|K]; [rewrite (Q K) in H; discriminate|].
  destruct (P K) as (B & _ & HB & E). rewrite E in H. injection H as H. clear P Q E.
  destruct (intercept r A R0 B HB) as (_ & _ & _ & _ & _ & I2). rewrite H in I2. split; auto.
  intros a b c. set (m' := fun j => match j with O => a | 1%nat => b | _ => c - (col_mean r A 2 - a * col_mean r A 0 - b * col_mean r A 1) end).
  destruct (sse_optimal r 3 _ (fun i => centered_nd r A i 2%nat) B HB m') as [L U]. rewrite H in L, U.
  rewrite !gap_vsse in L, U. cbn [m'] in L, U. rewrite I2 in L, U. unfold m' in L, U. fold c0 in L, U.
  replace (c0 + 0) with c0 in L, U by ring.
  replace (col_mean r A 2 - a * col_mean r A 0 - b * col_mean r A 1 + (c - (col_mean r A 2 - a * col_mean r A 0 - b * col_mean r A 1))) with c in L, U by ring.
  split; auto. intros G. specialize (U G). pose proof (U 0%nat ltac:(lia)) as U0. pose proof (U 1%nat ltac:(lia)) as U1. pose proof (U 2%nat ltac:(lia)) as U2.
  cbn in U0, U1, U2. rewrite I2 in U2. split; auto. split; auto. rewrite U0, U1 in U2. unfold c0. lra.
Qed.
(** residuals are orthogonal to x, y and 1 *)
Theorem C78_residuals : forall inv r A e, numpy_inv inv -> (0 < r)%nat ->
  rbind (Regression r 3 A) (reg_residuals inv) = Ok e ->
  sumn r e = 0 /\ sumn r (fun i => A i 0%nat * e i) = 0 /\ sumn r (fun i => A i 1%nat * e i) = 0.
Proof.
  intros inv r A e HI R0 H. rewrite (reg3 r A R0) in H. cbn [rbind] in H. unfold reg_residuals in H. cbn [g_Z g_k g_C] in H.
  destruct (coefs_cases inv r A HI R0) as [P Q].
  destruct (Classical_Prop.classic (collinear_xy r A)) as [K|K]; [rewrite (Q K) in H; discriminate|].
  destruct (P K) as (B & _ & HB & E). rewrite E in H. cbn [rbind] in H. injection H as H. clear P Q E.
  pose proof (normal_equations r 3 _ (fun i => centered_nd r A i 2%nat) B HB) as NE.
  assert (NE' : forall j, (j < 3)%nat -> sumn r (fun i => (if (j <? 2)%nat then centered_nd r A i j else 1) * e i) = 0).
  { rewrite <- H. exact NE. }
  clear NE. rename NE' into NE.
  assert (E2 := NE 2%nat ltac:(lia)). cbn [Nat.ltb Nat.leb] in E2.
  rewrite (sumn_ext r _ e) in E2 by (intros; ring). split; auto.
  assert (X : forall j, (j < 2)%nat -> sumn r (fun i => A i j * e i) = 0).
  { intros j J. specialize (NE j ltac:(lia)). assert (JB : (j <? 2)%nat = true) by (now apply Nat.ltb_lt). rewrite JB in NE.
    unfold centered_nd in NE. fold (col_mean r A j) in NE.
    rewrite (sumn_ext r _ (fun i => A i j * e i - col_mean r A j * e i)) in NE by (intros; ring).
    rewrite sumn_minus, sumn_scal, E2 in NE. lra. }
  split; apply X; lia.
Qed.
Example C78_ex : ~ collinear_xy 3 (array_of [V3 0 0 1; V3 1 0 0; V3 0 1 5]).
Proof.
  intros (u & v & w & NZ & E). pose proof (E 0%nat ltac:(lia)) as E0. pose proof (E 1%nat ltac:(lia)) as E1. pose proof (E 2%nat ltac:(lia)) as E2.
  cbn in E0, E1, E2. lra.
Qed.

(** * C80 *)
(** column layout: whatever the data, the fitted plane is z = - x - y *)
Theorem C80_columns : forall inv n (A : matn), numpy_inv inv -> (3 < n)%nat ->
  (exists u v w, (u <> 0 \/ v <> 0 \/ w <> 0) /\ forall i, (i < n)%nat ->
     let m := (A 0%nat i + A 1%nat i + A 2%nat i) / 3 in u * (A 0%nat i - m) + v * (A 1%nat i - m) + w = 0) /\
   rbind (Regression 3 n A) (coefs inv) = Raise LinAlgError \/
  exists m, rbind (Regression 3 n A) (coefs inv) = Ok m /\ m 0%nat = -1 /\ m 1%nat = -1 /\ m 2%nat = 0.
Proof.
  intros inv n A HI N. unfold Regression. cbn [Nat.eqb]. destruct (Nat.ltb_spec 3 n); [|lia]. cbn [Nat.eqb rbind].
  unfold coefs, xTx. cbn [g_k g_n g_C g_Z]. change (S (Nat.min 2 3)) with 3%nat. change (Nat.min 2 3) with 2%nat.
  set (C := fun i j => if (j <? 2)%nat then trn (centered_nd 3 A) i j else 1).
  pose proof (HI 3%nat (matrix_squared n C)) as HB. destruct (inv 3%nat (matrix_squared n C)) as [B|].
  - right. eexists. split; [reflexivity|].
    assert (K := exact_solution n 3 C (fun i => trn (centered_nd 3 A) i (3 - 1)%nat) B HB (fun j => if (j <? 2)%nat then -1 else 0)).
    assert (X : veq 3 (mulv 3 B (mulv n (trn C) (fun i => trn (centered_nd 3 A) i (3 - 1)%nat))) (fun j => if (j <? 2)%nat then -1 else 0)).
    { apply K. intros i I. unfold mulv. rewrite sumn3. unfold C, trn, centered_nd. cbn [Nat.ltb Nat.leb Nat.sub]. rewrite !sumn3.
      simpl INR. field. }
    split; [exact (X 0%nat ltac:(lia))|]. split; [exact (X 1%nat ltac:(lia))|exact (X 2%nat ltac:(lia))].
  - left. split; [|reflexivity]. destruct (singular_kernel 3 _ HB) as (x & (k & Kn & Ky) & E). apply (gram_kernel n 3 C x) in E.
    exists (x 0%nat), (x 1%nat), (x 2%nat). split; [destruct k as [|[|[|k]]]; auto; lia|].
    intros i I. specialize (E i I). unfold mulv in E. rewrite sumn3 in E. unfold C, trn, centered_nd in E. cbn [Nat.ltb Nat.leb] in E.
    rewrite !sumn3 in E. simpl INR in E. cbv zeta. replace (1 + 1 + 1) with 3 in E by ring. lra.
Qed.
(** so an exact plane given by columns is not recovered, though the same points by rows are *)
Theorem C80_exact_plane_lost : exists A, (forall i, (i < 4)%nat -> A 2%nat i = 5 * A 0%nat i + 7 * A 1%nat i) /\
  forall inv, numpy_inv inv ->
  (exists m, rbind (Regression 3 4 A) (coefs inv) = Ok m /\ m 0%nat = -1 /\ m 1%nat = -1) /\
  (exists m, rbind (Regression 4 3 (trn A)) (coefs inv) = Ok m /\ m 0%nat = 5 /\ m 1%nat = 7).
Proof.
  exists (trn (array_of [V3 0 0 0; V3 1 0 5; V3 0 1 7; V3 1 1 12])). split.
  { intros [|[|[|[|i]]]] I; try lia; cbn; lra. }
  intros inv HI. set (A := array_of [V3 0 0 0; V3 1 0 5; V3 0 1 7; V3 1 1 12]). split.
  - destruct (C80_columns inv 4 (trn A) HI ltac:(lia)) as [(H & _)|(m & E & M0 & M1 & _)]; [|eauto].
    exfalso. destruct H as (u & v & w & NZ & E).
    pose proof (E 0%nat ltac:(lia)) as E0. pose proof (E 1%nat ltac:(lia)) as E1. pose proof (E 2%nat ltac:(lia)) as E2.
    unfold A, trn, array_of in E0, E1, E2. cbn in E0, E1, E2. lra.
  - change (trn (trn A)) with A.
    assert (NC : ~ collinear_xy 4 A).
    { intros (u & v & w & NZ & E). pose proof (E 0%nat ltac:(lia)) as E0. pose proof (E 1%nat ltac:(lia)) as E1. pose proof (E 2%nat ltac:(lia)) as E2.
      cbn in E0, E1, E2. lra. }
    destruct (C78_defined inv 4 A HI ltac:(lia)) as [_ D]. destruct (proj1 D NC) as [m E]. exists m. split; auto.
    destruct (C78_least_squares inv 4 A m HI ltac:(lia) E) as [_ U]. destruct (U 5 7 0) as [_ U'].
    destruct U' as (U0 & U1 & _); [|auto]. replace (vsse 4 A 5 7 0) with 0 by (unfold vsse; cbn; ring).
    apply sumn_nonneg. intros i I. apply Rle_0_sqr.
Qed.

(** * C79 *)
Lemma array_nth : forall pts i, (i < length pts)%nat -> In (nth i pts vzero) pts.
Proof. intros. now apply nth_In. Qed.
Theorem C79_coefficients : forall inv pts a b c, numpy_inv inv -> pts <> [] ->
  (forall p, In p pts -> vz p = a * vx p + b * vy p + c) -> ~ collinear_xy (length pts) (array_of pts) ->
  exists m, rbind (Regression (length pts) 3 (array_of pts)) (coefs inv) = Ok m /\ m 0%nat = a /\ m 1%nat = b /\ m 2%nat = 0.
Proof.
  intros inv pts a b c HI NE PL NC. set (r := length pts). assert (R0 : (0 < r)%nat) by (unfold r; destruct pts; [congruence|simpl; lia]).
  destruct (C78_defined inv r (array_of pts) HI R0) as [_ D]. destruct (proj1 D NC) as [m E]. exists m. split; auto.
  destruct (C78_least_squares inv r (array_of pts) m HI R0 E) as [M2 U]. destruct (U a b c) as [_ U'].
  destruct U' as (U0 & U1 & _); [|auto].
  replace (vsse r (array_of pts) a b c) with 0.
  - apply sumn_nonneg. intros i I. apply Rle_0_sqr.
  - symmetry. apply sumn_0. intros i I. cbv zeta. unfold array_of. rewrite (PL (nth i pts vzero)) by now apply array_nth. ring.
Qed.

(** upward unit normal of z = a x + b y + c *)
Definition graph_normal (a b : R) : vec3 := vscale (/ sqrt (1 + (a * a + b * b))) (V3 (- a) (- b) 1).
Lemma graph_normal_unit : forall a b, unit3 (graph_normal a b).
Proof.
  intros a b. unfold unit3, graph_normal. assert (P : 0 < 1 + (a * a + b * b)) by nra.
  assert (S := sqrt_lt_R0 _ P). assert (Q : sqrt (1 + (a * a + b * b)) * sqrt (1 + (a * a + b * b)) = 1 + (a * a + b * b)) by (apply sqrt_sqrt; lra).
  set (h := sqrt (1 + (a * a + b * b))) in *. vunf.
  replace (/ h * - a * (/ h * - a) + / h * - b * (/ h * - b) + / h * 1 * (/ h * 1)) with ((1 + (a * a + b * b)) / (h * h)) by (field; lra).
  rewrite Q. field. lra.
Qed.
Lemma rotated_slope : forall a b c, let az := - atan2 (- b) (- a) in let rho := sqrt (a * a + b * b) in
  mv (rotation az) (V3 a b c) = V3 (- rho) 0 c /\ (a <> 0 \/ b <> 0 -> rho * cos az = - a /\ rho * sin az = b).
Proof.
  intros a b c az rho. unfold az. destruct (Req_EM_T (a * a + b * b) 0) as [Z|NZ].
  - assert (a = 0) by nra. assert (b = 0) by nra. subst a b. split; [|intros [|]; lra].
    unfold rho, rotation. rewrite Z, sqrt_0. apply vec3_eq; unfold mv, dot; cbn [r0 r1 r2 vx vy vz]; ring.
  - assert (N : - a <> 0 \/ - b <> 0) by (destruct (Req_EM_T a 0); [right; subst; intros ?; apply NZ; nra|left; lra]).
    assert (P : 0 < rho) by (apply sqrt_lt_R0; nra).
    assert (Q : rho * rho = a * a + b * b) by (apply sqrt_sqrt; nra).
    assert (RE : sqrt (- a * - a + - b * - b) = rho) by (unfold rho; f_equal; ring).
    assert (HC : cos (- atan2 (- b) (- a)) = - a / rho) by (rewrite cos_neg, cos_atan2, RE; auto).
    assert (HS : sin (- atan2 (- b) (- a)) = b / rho) by (rewrite sin_neg, sin_atan2, RE by auto; field; lra).
    split.
    + unfold rotation. rewrite HC, HS. apply vec3_eq; unfold mv, dot; cbn [r0 r1 r2 vx vy vz]; try ring.
      * apply Rmult_eq_reg_r with rho; [|lra]. transitivity (- (a * a + b * b)); [field; lra|rewrite <- Q; ring].
      * field. lra.
    + intros _. rewrite HC, HS. split; field; lra.
Qed.
(** the angles reported describe the fitted plane, for any data *)
Theorem C79_angles : forall inv r A m, numpy_inv inv -> (0 < r)%nat -> rbind (Regression r 3 A) (coefs inv) = Ok m ->
  exists f, LinearOrientation inv r 3 A = Ok f /\
  let '(s, d) := l_strike_dip f in
  -180 <= s < 180 /\ 0 <= d < 90 /\ tan (radians d) = sqrt (m 0%nat * m 0%nat + m 1%nat * m 1%nat) /\
  plane_normal s d = graph_normal (m 0%nat) (m 1%nat).
Proof.
  intros inv r A m HI R0 H. destruct (C78_least_squares inv r A m HI R0 H) as [M2 _].
  unfold LinearOrientation. rewrite (reg3 r A R0) in *. cbn [rbind] in *. rewrite H. cbn [rbind g_k negb Nat.eqb].
  assert (CV : exists V, covariance inv {| g_n := r; g_k := 3; g_C := fun i j => if (j <? 2)%nat then centered_nd r A i j else 1;
    g_Z := fun i => centered_nd r A i 2%nat |} = Ok V).
  { unfold covariance. destruct (_ =? _)%nat; [eauto|]. unfold reg_residuals. rewrite H. cbn [rbind].
    unfold coefs in H. destruct (xTx _ _); try discriminate. cbn [rbind]. eauto. }
  destruct CV as [V ->]. cbn [rbind]. eexists. split; [reflexivity|]. unfold l_strike_dip. cbn [l_azimuth l_slope].
  set (a := m 0%nat) in *. set (b := m 1%nat) in *. destruct (rotated_slope a b (m 2%nat)) as [E P].
  rewrite E. cbn [vx]. rewrite Ropp_involutive. set (rho := sqrt (a * a + b * b)) in *. set (az := - atan2 (- b) (- a)) in *.
  assert (RP : 0 <= rho) by apply sqrt_pos. assert (Q : rho * rho = a * a + b * b) by (apply sqrt_sqrt; nra).
  pose proof (atan2_bound (- b) (- a)) as AB. pose proof (atan_bound rho) as TB. pose proof (atan_nonneg rho RP) as TN. pose proof PI_pos as PP.
  split; [|split; [|split]].
  - assert (D1 : degrees (- PI) <= degrees az) by (apply degrees_le; unfold az; lra).
    assert (D2 : degrees az < degrees PI) by (apply degrees_lt; unfold az; lra).
    rewrite degrees_opp, degrees_PI in D1. rewrite degrees_PI in D2. lra.
  - assert (D1 : degrees 0 <= degrees (atan rho)) by (apply degrees_le; lra).
    assert (D2 : degrees (atan rho) < degrees (PI / 2)) by (apply degrees_lt; lra).
    rewrite degrees_0 in D1. rewrite degrees_PI2 in D2. lra.
  - rewrite radians_degrees. apply atan_right_inv.
  - rewrite plane_normal_components, !radians_degrees. unfold graph_normal. rewrite <- Q.
    assert (RQ : (rho²) = rho * rho) by reflexivity.
    rewrite sin_atan, cos_atan, RQ. assert (SP : 0 < sqrt (1 + rho * rho)) by (apply sqrt_lt_R0; nra).
    destruct (Req_EM_T (a * a + b * b) 0) as [Z|NZ].
    + assert (a = 0) by nra. assert (b = 0) by nra. assert (R' : rho = 0) by nra. rewrite R' in SP |- *. rewrite H0, H1. apply vec3_eq; vunf; field; lra.
    + destruct P as [PC PS]; [destruct (Req_EM_T a 0); [right; intros ?; apply NZ; subst; nra|auto]|].
      apply vec3_eq; vunf.
      * transitivity (/ sqrt (1 + rho * rho) * (rho * cos az)); [field; lra|rewrite PC; reflexivity].
      * transitivity (- (/ sqrt (1 + rho * rho) * (rho * sin az))); [field; lra|rewrite PS; ring].
      * field. lra.
Qed.
(** the PCA normal of an exact non-vertical plane *)
Lemma pca_exact_normal : forall svd pts a b c f, lapack svd ->
  (forall p, In p pts -> vz p = a * vx p + b * vy p + c) -> ~ collinear_xy (length pts) (array_of pts) ->
  PCAOrientation svd pts None None = Ok f -> p_normal f = graph_normal a b.
Proof.
  intros svd pts a b c f HL PL NC HF.
  destruct (C09_normal svd pts ones f HL HF) as (Un & Up & _).
  destruct (C01_total_least_squares svd pts f HL HF) as (m & Em & Hm & _ & OPT).
  assert (P : 0 < 1 + (a * a + b * b)) by nra. assert (SP := sqrt_lt_R0 _ P).
  set (h := sqrt (1 + (a * a + b * b))) in *.
  specialize (OPT (graph_normal a b) (c / h) (graph_normal_unit a b)).
  assert (Z0 : sum_sq_dist (graph_normal a b) (c / h) pts = 0).
  { apply ssd_zero. intros p Hp. unfold graph_normal. fold h. specialize (PL p Hp). vunf. rewrite PL. field. lra. }
  rewrite Z0 in OPT. set (n := p_normal f) in *.
  assert (Z1 : sum_sq_dist n (dot n m) pts = 0).
  { apply Rle_antisym; auto. apply sumf_nonneg. intros. apply Rle_0_sqr. }
  pose proof (proj1 (ssd_zero n (dot n m) pts) Z1) as ON.
  assert (K : vx n + vz n * a = 0 /\ vy n + vz n * b = 0).
  { destruct (Req_EM_T (vx n + vz n * a) 0) as [e0|n0]; [destruct (Req_EM_T (vy n + vz n * b) 0) as [e1|n1]; auto|];
      exfalso; apply NC; exists (vx n + vz n * a), (vy n + vz n * b), (dot n m - vz n * c); (split; [auto|]); intros i I; unfold array_of;
      assert (HIn := nth_In pts vzero I); specialize (ON _ HIn); specialize (PL _ HIn); set (p := nth i pts vzero) in *;
      unfold dot in ON at 1; rewrite PL in ON; lra. }
  destruct K as [K0 K1].
  assert (NZ : vz n * vz n * (1 + (a * a + b * b)) = 1).
  { unfold unit3, nrm2, dot in Un. replace (vx n) with (- (vz n * a)) in Un by lra. replace (vy n) with (- (vz n * b)) in Un by lra. lra. }
  assert (HH : h * h = 1 + (a * a + b * b)) by (apply sqrt_sqrt; lra).
  assert (VZ : vz n = / h).
  { apply Rmult_eq_reg_r with h; [|lra]. rewrite Rinv_l by lra.
    assert (X : (vz n * h) * (vz n * h) = 1) by (rewrite <- HH in NZ; lra).
    assert (Y : 0 <= vz n * h) by (apply Rmult_le_pos; [exact Up|lra]). nra. }
  unfold graph_normal. fold h. apply vec3_eq; vunf; rewrite <- VZ; lra.
Qed.
Theorem C79_methods_agree : forall inv svd pts a b c f, numpy_inv inv -> lapack svd ->
  (forall p, In p pts -> vz p = a * vx p + b * vy p + c) -> ~ collinear_xy (length pts) (array_of pts) ->
  PCAOrientation svd pts None None = Ok f ->
  exists l s d, LinearOrientation inv (length pts) 3 (array_of pts) = Ok l /\ strike_dip f = Some (s, d) /\
  snd (l_strike_dip l) = d /\ tan (radians d) = sqrt (a * a + b * b) /\
  (a <> 0 \/ b <> 0 -> cong360 (fst (l_strike_dip l)) s).
Proof.
  intros inv svd pts a b c f HI HL PL NC HF.
  assert (NE : pts <> []). { intros ->. cbn in HF. discriminate. }
  assert (R0 : (0 < length pts)%nat) by (destruct pts; [congruence|simpl; lia]).
  destruct (C79_coefficients inv pts a b c HI NE PL NC) as (m & E & M0 & M1 & _).
  destruct (C79_angles inv _ _ m HI R0 E) as (l & EL & ANG). exists l.
  destruct (C11_strike_dip_range svd pts ones f HL HF) as (s & d & ES & Dr & Sr). exists s, d. split; auto. split; auto.
  pose proof (C12_strike_dip_plane svd pts ones f HL HF s d ES) as PN.
  rewrite (pca_exact_normal svd pts a b c f HL PL NC HF) in PN.
  destruct (l_strike_dip l) as [s' d']. cbn [fst snd]. destruct ANG as (Sr' & Dr' & TAN & PN'). rewrite M0, M1 in *.
  rewrite <- PN in PN'. rewrite !plane_normal_components in PN'. injection PN' as X1 X2 X3.
  assert (DD : d' = d) by (apply dip_of_cos; auto; lra). split; auto. subst d'. split; auto.
  intros NZ. assert (DP : 0 < d).
  { destruct (proj1 Dr) as [|<-]; auto. exfalso. rewrite radians_0, tan_0 in TAN.
    assert (0 < sqrt (a * a + b * b)) by (apply sqrt_lt_R0; destruct NZ; nra). lra. }
  assert (SD := sin_dip_pos d ltac:(lra)). apply Rmult_eq_reg_l in X1; [|lra].
  assert (X2' : sin (radians s') = sin (radians s)) by (apply Rmult_eq_reg_l with (sin (radians d)); lra).
  destruct (Rlt_dec (s - s') 360) as [L|L].
  - exists 0%Z. rewrite (radians_inj_small s' s); auto; lra.
  - exists (-1)%Z. assert (s' = s - 360); [|lra]. apply radians_inj_small; [lra| |].
    + rewrite X1. replace (radians s) with (radians (s - 360) + 2 * PI) by (rewrite radians_minus, radians_360; ring). rewrite cos_plus, cos_2PI, sin_2PI; ring.
    + rewrite X2'. replace (radians s) with (radians (s - 360) + 2 * PI) by (rewrite radians_minus, radians_360; ring). rewrite sin_plus, cos_2PI, sin_2PI; ring.
Qed.
Example C79_ex : (forall p, In p [V3 0 0 1; V3 1 0 3; V3 0 1 0; V3 1 1 2] -> vz p = 2 * vx p + (-1) * vy p + 1) /\
  ~ collinear_xy 4 (array_of [V3 0 0 1; V3 1 0 3; V3 0 1 0; V3 1 1 2]).
Proof.
  split.
  - intros p [<-|[<-|[<-|[<-|[]]]]]; cbn; lra.
  - intros (u & v & w & NZ & E). pose proof (E 0%nat ltac:(lia)) as E0. pose proof (E 1%nat ltac:(lia)) as E1. pose proof (E 2%nat ltac:(lia)) as E2.
    cbn in E0, E1, E2. lra.
Qed.

(** * C107 *)
Lemma normal_matrix_ok : forall r A, meq 3 3 (normal_matrix r A)
  (matrix_squared r (fun i j => if (j <? 2)%nat then centered_nd r A i j else 1)).
Proof.
  intros r A i j I J. unfold normal_matrix, matrix_squared, mulm, trn. apply sumn_ext. intros k K.
  destruct i as [|[|[|i]]], j as [|[|[|j]]]; try lia; reflexivity.
Qed.
Lemma covariance3 : forall inv r A m, numpy_inv inv -> (0 < r)%nat -> rbind (Regression r 3 A) (coefs inv) = Ok m ->
  exists B V, is_inverse 3 (normal_matrix r A) B /\ rbind (Regression r 3 A) (covariance inv) = Ok V /\
  let sse := vsse r A (m 0%nat) (m 1%nat) (col_mean r A 2 - m 0%nat * col_mean r A 0 - m 1%nat * col_mean r A 1) in
  forall i j, V i j = if (r =? 3)%nat then 0 else sse * B i j.
Proof.
  intros inv r A m HI R0 H. destruct (C78_least_squares inv r A m HI R0 H) as [M2 _]. rewrite (reg3 r A R0) in *. cbn [rbind] in *.
  destruct (coefs_cases inv r A HI R0) as [P Q].
  destruct (Classical_Prop.classic (collinear_xy r A)) as [K|K]; [rewrite (Q K) in H; discriminate|].
  destruct (P K) as (B & EX & HB & E). rewrite E in H. injection H as H.
  unfold covariance, reg_residuals. rewrite E, EX. cbn [rbind g_n g_k g_Z g_C]. rewrite H.
  exists B. destruct (r =? 3)%nat.
  - exists (fun _ _ => 0). split; auto. eapply inverse_ext; [apply meq_sym, normal_matrix_ok|apply meq_refl|exact HB].
  - eexists. split; [eapply inverse_ext; [apply meq_sym, normal_matrix_ok|apply meq_refl|exact HB]|]. split; [reflexivity|].
    cbv zeta. intros i j. cbv beta. f_equal.
    pose proof (gap_vsse r A m) as GV. rewrite M2, Rplus_0_r in GV. exact GV.
Qed.
(** the covariance times the normal matrix is the full residual sum of squares, i.e. the
    unbiased estimate multiplied by the degrees of freedom; three points give zero *)
Theorem C107_covariance : forall inv r A m, numpy_inv inv -> (0 < r)%nat -> rbind (Regression r 3 A) (coefs inv) = Ok m ->
  exists V, rbind (Regression r 3 A) (covariance inv) = Ok V /\
  let sse := vsse r A (m 0%nat) (m 1%nat) (col_mean r A 2 - m 0%nat * col_mean r A 0 - m 1%nat * col_mean r A 1) in
  forall i j, (i < 3)%nat -> (j < 3)%nat -> V i j = V j i /\
  (r = 3%nat -> V i j = 0) /\
  (r <> 3%nat -> V i 0%nat * normal_matrix r A 0%nat j + V i 1%nat * normal_matrix r A 1%nat j + V i 2%nat * normal_matrix r A 2%nat j =
     if (i =? j)%nat then sse else 0).
Proof.
  intros inv r A m HI R0 H. destruct (covariance3 inv r A m HI R0 H) as (B & V & HB & E & EV). exists V. split; auto.
  cbv zeta in *. set (sse := vsse _ _ _ _ _) in *. intros i j I J.
  assert (SY : symmetric 3 B).
  { eapply inverse_symmetric; [|exact HB]. intros k l K L. unfold trn, normal_matrix. apply sumn_ext. intros; ring. }
  rewrite !EV. destruct (Nat.eqb_spec r 3) as [e|n].
  - split; auto. split; auto. intros; contradiction.
  - split; [rewrite (SY i j I J); reflexivity|]. split; [intros; contradiction|]. intros _.
    destruct HB as [_ HB]. specialize (HB i j I J). unfold mulm in HB. rewrite sumn3 in HB. unfold idn in HB.
    transitivity (sse * (if (i =? j)%nat then 1 else 0)); [rewrite <- HB; ring|destruct (i =? j)%nat; ring].
Qed.
(** quadratic form of the covariance, hence standard errors along any direction exist *)
Lemma covariance_psd : forall inv r A V, numpy_inv inv -> (0 < r)%nat -> (exists m, rbind (Regression r 3 A) (coefs inv) = Ok m) ->
  rbind (Regression r 3 A) (covariance inv) = Ok V ->
  (forall x : vecn, 0 <= sumn 3 (fun i => sumn 3 (fun j => x i * V i j * x j))) /\
  V 0%nat 2%nat = 0 /\ V 1%nat 2%nat = 0 /\ V 2%nat 0%nat = 0 /\ V 2%nat 1%nat = 0 /\ V 0%nat 1%nat = V 1%nat 0%nat.
Proof.
  intros inv r A V HI R0 [m H] HV. destruct (covariance3 inv r A m HI R0 H) as (B & V' & HB & E & EV).
  rewrite HV in E. injection E as <-. cbv zeta in EV. set (sse := vsse _ _ _ _ _) in EV.
  assert (SP : 0 <= sse) by (apply sumn_nonneg; intros i I; apply Rle_0_sqr).
  assert (HB' : is_inverse 3 (matrix_squared r (fun i j => if (j <? 2)%nat then centered_nd r A i j else 1)) B)
    by (eapply inverse_ext; [apply normal_matrix_ok|apply meq_refl|exact HB]).
  destruct (intercept r A R0 B HB') as (I0 & I1 & I2 & I3 & _).
  assert (SY : symmetric 3 B) by (eapply inverse_symmetric; [apply gram_symmetric|exact HB']).
  split.
  2:{ rewrite !EV, I0, I1, I2, I3, (SY 0%nat 1%nat) by lia. unfold trn. destruct (r =? 3)%nat; repeat split; ring. }
  intros x. rewrite (sumn_ext 3 _ (fun i => (if (r =? 3)%nat then 0 else sse) * (x i * mulv 3 B x i))).
  - rewrite sumn_scal. apply Rmult_le_pos; [destruct (r =? 3)%nat; lra|].
    set (y := mulv 3 B x). pose proof (inverse_solve 3 _ B x HB') as S. fold y in S.
    rewrite (sumn_ext 3 _ (fun i => y i * mulv 3 (matrix_squared r (fun i j => if (j <? 2)%nat then centered_nd r A i j else 1)) y i)).
    + rewrite gram_quad. apply sumn_nonneg. intros; nra.
    + intros i I. rewrite S by auto. ring.
  - intros i I. unfold mulv. rewrite <- !sumn_scal. apply sumn_ext. intros j J. rewrite EV. destruct (r =? 3)%nat; ring.
Qed.
Theorem C107_standard_errors : forall inv r A, numpy_inv inv -> (0 < r)%nat -> ~ collinear_xy r A ->
  exists a b c, rbind (Regression r 3 A) (reg_standard_errors inv) = Ok [Some a; Some b; Some c] /\
  0 <= a /\ 0 <= b /\ 0 <= c.
Proof.
  intros inv r A HI R0 NC. destruct (proj1 (proj2 (C78_defined inv r A HI R0)) NC) as [m H].
  destruct (covariance3 inv r A m HI R0 H) as (B & V & HB & E & _).
  destruct (covariance_psd inv r A V HI R0 (ex_intro _ m H) E) as [PSD _].
  assert (D : forall k, (k < 3)%nat -> 0 <= V k k).
  { intros k K. specialize (PSD (fun i => idn i k)). rewrite sumn3, !sumn3 in PSD. unfold idn in PSD.
    destruct k as [|[|[|k]]]; try lia; cbn [Nat.eqb] in PSD; lra. }
  rewrite (reg3 r A R0) in *. cbn [rbind] in *. unfold reg_standard_errors. rewrite E. cbn [rbind g_k seq map].
  unfold diag_sqrt, fsqrt. pose proof (D 0%nat ltac:(lia)). pose proof (D 1%nat ltac:(lia)). pose proof (D 2%nat ltac:(lia)).
  destruct (Rlt_dec (V 0%nat 0%nat) 0); [lra|]. destruct (Rlt_dec (V 1%nat 1%nat) 0); [lra|]. destruct (Rlt_dec (V 2%nat 2%nat) 0); [lra|].
  do 3 eexists. split; [reflexivity|]. repeat split; apply sqrt_pos.
Qed.

(** * C108 *)
Lemma linear_fields : forall inv r A f, numpy_inv inv -> (0 < r)%nat -> LinearOrientation inv r 3 A = Ok f ->
  exists m V, rbind (Regression r 3 A) (coefs inv) = Ok m /\ rbind (Regression r 3 A) (covariance inv) = Ok V /\
  l_cov f = mat3_of V /\ l_azimuth f = - atan2 (- m 1%nat) (- m 0%nat) /\
  l_coef f = mv (rotation (l_azimuth f)) (V3 (m 0%nat) (m 1%nat) (m 2%nat)).
Proof.
  intros inv r A f HI R0 H. unfold LinearOrientation in H. rewrite (reg3 r A R0) in *. cbn [rbind] in *.
  destruct (coefs inv _) as [m| |] eqn:E; try discriminate. cbn [rbind g_k Nat.eqb negb] in H.
  destruct (covariance inv _) as [V| |] eqn:EV; try discriminate. cbn [rbind] in H. injection H as <-.
  exists m, V. cbn [l_cov l_azimuth l_coef]. repeat split; auto.
Qed.
(** covariance of the rotated coefficients R v for coefficients v with covariance V *)
Definition propagated (R V : mat3) : mat3 := mm (mm R V) (mT R).
Theorem C108_rotated_covariance : forall inv r A f, numpy_inv inv -> (0 < r)%nat -> LinearOrientation inv r 3 A = Ok f ->
  (l_rotated_covariance f = propagated (rotation (l_azimuth f)) (l_cov f) <->
   sin (2 * l_azimuth f) = 0 \/ (vx (r0 (l_cov f)) = vy (r1 (l_cov f)) /\ vy (r0 (l_cov f)) = 0)).
Proof.
  intros inv r A f HI R0 H. destruct (linear_fields inv r A f HI R0 H) as (m & V & E & EV & LC & _).
  destruct (covariance_psd inv r A V HI R0 (ex_intro _ m E) EV) as (_ & V02 & V12 & V20 & V21 & V01).
  unfold l_rotated_covariance, propagated. rewrite LC. set (t := l_azimuth f). unfold mat3_of. cbn [r0 r1 r2 vx vy vz].
  rewrite V02, V12, V20, V21, <- V01. set (a := V 0%nat 0%nat). set (b := V 0%nat 1%nat). set (d := V 1%nat 1%nat). set (e := V 2%nat 2%nat).
  rewrite sin_2a. pose proof (sincos1 t) as SC. set (c := cos t) in *. set (s := sin t) in *.
  unfold rotation. fold c s. unfold mm, vm, mT. cbn [r0 r1 r2 vx vy vz]. split.
  - intros EQ.
    assert (Q1 : a * (c * c) + 2 * b * (c * s) + d * (s * s) = a * (c * c) - 2 * b * (c * s) + d * (s * s)).
    { apply (f_equal (fun M => vx (r0 M))) in EQ. unfold vadd, vscale in EQ. cbn [r0 vx vy vz] in EQ. lra. }
    assert (Q2 : - a * (c * s) + b * (c * c - s * s) + d * (c * s) = a * (c * s) + b * (c * c - s * s) - d * (c * s)).
    { apply (f_equal (fun M => vy (r0 M))) in EQ. unfold vadd, vscale in EQ. cbn [r0 vx vy vz] in EQ. lra. }
    destruct (Req_EM_T (s * c) 0) as [Z|NZ]; [left; lra|]. right.
    assert (b * (c * s) = 0) by lra. assert ((a - d) * (c * s) = 0) by lra. split.
    + apply Rminus_diag_uniq. apply Rmult_eq_reg_r with (c * s); [lra|]. intros X. apply NZ. lra.
    + apply Rmult_eq_reg_r with (c * s); [lra|]. intros X. apply NZ. lra.
  - intros D. assert (K : b * (c * s) = 0 /\ (a - d) * (c * s) = 0).
    { destruct D as [D|[D1 D2]]; [assert (c * s = 0) by lra; rewrite H0; split; ring|rewrite D1, D2; split; ring]. }
    destruct K as [K1 K2]. f_equal; apply vec3_eq; unfold vadd, vscale; cbn [vx vy vz]; lra.
Qed.
(** the errors reported by strike_dip(uncertainties=True) always exist *)
Theorem C108_errors_defined : forall inv r A f, numpy_inv inv -> (0 < r)%nat -> LinearOrientation inv r 3 A = Ok f ->
  exists a b, l_errors f = Some (a, b) /\ 0 <= a /\ 0 <= b.
Proof.
  intros inv r A f HI R0 H. destruct (linear_fields inv r A f HI R0 H) as (m & V & E & EV & LC & _).
  destruct (covariance_psd inv r A V HI R0 (ex_intro _ m E) EV) as (PSD & V02 & V12 & V20 & V21 & V01).
  unfold l_errors, l_rotated_covariance. rewrite LC. set (t := l_azimuth f). unfold mat3_of, rotation. cbn [r0 r1 r2 vx vy vz].
  set (c := cos t) in *. set (s := sin t) in *. unfold mm, vm, mT. cbn [r0 r1 r2 vx vy vz]. unfold vadd, vscale. cbn [vx vy vz].
  assert (P0 := PSD (fun i => match i with O => c | 1%nat => s | _ => 0 end)).
  assert (P1 := PSD (fun i => match i with O => - s | 1%nat => c | _ => 0 end)).
  assert (P2 := PSD (fun i => match i with O => 0 | 1%nat => 0 | _ => 1 end)).
  rewrite !sumn3 in P0, P1, P2. unfold fsqrt.
  match goal with |- context [Rlt_dec ?x 0] => destruct (Rlt_dec x 0); [lra|] end.
  match goal with |- context [Rlt_dec ?x 0] => destruct (Rlt_dec x 0); [lra|] end.
  match goal with |- context [Rlt_dec ?x 0] => destruct (Rlt_dec x 0); [lra|] end.
  do 2 eexists. split; [reflexivity|]. rewrite <- degrees_0. split; apply degrees_le, sqrt_pos.
Qed.
Definition cross_pts : list vec3 := [V3 1 0 2; V3 (-1) 0 0; V3 0 2 1; V3 0 (-2) (-3)].
Lemma cross_fit : forall inv, numpy_inv inv -> exists f, LinearOrientation inv 4 3 (array_of cross_pts) = Ok f /\
  l_azimuth f = 3 * (PI / 4) /\ l_cov f = M3 (V3 2 0 0) (V3 0 (1 / 2) 0) (V3 0 0 1).
Proof.
  intros inv HI. set (A := array_of cross_pts).
  assert (NC : ~ collinear_xy 4 A).
  { intros (u & v & w & NZ & E). pose proof (E 0%nat ltac:(lia)) as E0. pose proof (E 1%nat ltac:(lia)) as E1. pose proof (E 2%nat ltac:(lia)) as E2.
    cbn in E0, E1, E2. lra. }
  destruct (proj1 (proj2 (C78_defined inv 4 A HI ltac:(lia))) NC) as [m H].
  destruct (C78_least_squares inv 4 A m HI ltac:(lia) H) as [M2 LS]. cbv zeta in LS.
  destruct (C107_covariance inv 4 A m HI ltac:(lia) H) as (V & EV & K). cbv zeta in K.
  assert (MX : col_mean 4 A 0 = 0) by (unfold col_mean, A; cbn; lra).
  assert (MY : col_mean 4 A 1 = 0) by (unfold col_mean, A; cbn; lra).
  assert (MZ : col_mean 4 A 2 = 0) by (unfold col_mean, A; cbn; lra).
  rewrite MX, MY, MZ in *. destruct (LS 1 1 0) as [L _]. unfold vsse, A in L. cbn in L.
  assert (X : 2 * ((m 0%nat - 1) * (m 0%nat - 1)) + 8 * ((m 1%nat - 1) * (m 1%nat - 1)) <= 0) by lra.
  pose proof (Rle_0_sqr (m 0%nat - 1)) as S0. pose proof (Rle_0_sqr (m 1%nat - 1)) as S1. unfold Rsqr in S0, S1.
  assert (A0 : m 0%nat = 1) by (apply Rminus_diag_uniq, Rsqr_0_uniq; unfold Rsqr; lra).
  assert (A1 : m 1%nat = 1) by (apply Rminus_diag_uniq, Rsqr_0_uniq; unfold Rsqr; lra). clear L X LS S0 S1.
  assert (SS : vsse 4 A (m 0%nat) (m 1%nat) (0 - m 0%nat * 0 - m 1%nat * 0) = 4) by (rewrite A0, A1; unfold vsse, A; cbn; lra).
  rewrite SS in K.
  assert (NM : forall i j, (i < 3)%nat -> (j < 3)%nat -> normal_matrix 4 A i j =
     if (i =? j)%nat then match i with O => 2 | 1%nat => 8 | _ => 4 end else 0).
  { intros i j I J. unfold normal_matrix, regressor. rewrite MX, MY.
    destruct i as [|[|[|i]]], j as [|[|[|j]]]; try lia; cbn; lra. }
  assert (VE : forall i j, (i < 3)%nat -> (j < 3)%nat -> V i j = if (i =? j)%nat then match i with O => 2 | 1%nat => 1 / 2 | _ => 1 end else 0).
  { intros i j I J. destruct (K i j I J) as (_ & _ & Q). specialize (Q ltac:(lia)).
    rewrite !NM in Q by lia. destruct i as [|[|[|i]]], j as [|[|[|j]]]; try lia; cbn [Nat.eqb] in *; lra. }
  unfold LinearOrientation. rewrite (reg3 4 A) in * by lia. cbn [rbind] in *. rewrite H. cbn [rbind g_k Nat.eqb negb]. rewrite EV. cbn [rbind].
  eexists. split; [reflexivity|]. cbn [l_azimuth l_cov]. split.
  - rewrite A0, A1. pose proof PI_pos. replace (- (1)) with (-1) by ring. unfold atan2. destruct (Rlt_dec 0 (-1)); [lra|]. destruct (Rlt_dec (-1) 0); [|lra].
    destruct (Rle_dec 0 (-1)); [lra|]. replace (-1 / -1) with 1 by field. rewrite atan_1. lra.
  - unfold mat3_of. rewrite !VE by lia. reflexivity.
Qed.
(** The first error is the root of the variance along (cos az, sin az), the second the one
    across it. *)
Theorem C108_errors_value : forall inv r A f, numpy_inv inv -> (0 < r)%nat -> LinearOrientation inv r 3 A = Ok f ->
  exists a b, l_errors f = Some (degrees a, degrees b) /\ 0 <= a /\ 0 <= b /\
  let u := V3 (cos (l_azimuth f)) (sin (l_azimuth f)) 0 in let v := V3 (- sin (l_azimuth f)) (cos (l_azimuth f)) 0 in
  a * a = dot u (mv (l_cov f) u) /\ b * b = dot v (mv (l_cov f) v).
Proof.
  intros inv r A f HI R0 H. destruct (linear_fields inv r A f HI R0 H) as (m & V & E & EV & LC & _).
  destruct (covariance_psd inv r A V HI R0 (ex_intro _ m E) EV) as (PSD & V02 & V12 & V20 & V21 & V01).
  unfold l_errors, l_rotated_covariance. rewrite LC. set (t := l_azimuth f). unfold mat3_of, rotation. cbn [r0 r1 r2 vx vy vz].
  set (c := cos t) in *. set (s := sin t) in *. unfold mm, vm, mT, mv, dot. cbn [r0 r1 r2 vx vy vz]. unfold vadd, vscale. cbn [vx vy vz].
  assert (P0 := PSD (fun i => match i with O => c | 1%nat => s | _ => 0 end)).
  assert (P1 := PSD (fun i => match i with O => - s | 1%nat => c | _ => 0 end)).
  assert (P2 := PSD (fun i => match i with O => 0 | 1%nat => 0 | _ => 1 end)).
  rewrite !sumn3 in P0, P1, P2. unfold fsqrt.
  match goal with |- context [Rlt_dec ?x 0] => destruct (Rlt_dec x 0) as [|N0]; [lra|] end.
  match goal with |- context [Rlt_dec ?x 0] => destruct (Rlt_dec x 0) as [|N1]; [lra|] end.
  match goal with |- context [Rlt_dec ?x 0] => destruct (Rlt_dec x 0) as [|N2]; [lra|] end.
  do 2 eexists. split; [reflexivity|]. split; [apply sqrt_pos|]. split; [apply sqrt_pos|].
  rewrite !sqrt_sqrt by lra. split; ring.
Qed.
Theorem C108_rotated_covariance_refuted : forall inv, numpy_inv inv -> exists pts f,
  LinearOrientation inv (length pts) 3 (array_of pts) = Ok f /\
  l_rotated_covariance f <> propagated (rotation (l_azimuth f)) (l_cov f).
Proof.
  intros inv HI. destruct (cross_fit inv HI) as (f & E & AZ & CV). exists cross_pts, f. split; [exact E|].
  intros Q. apply (C108_rotated_covariance inv 4 _ f HI ltac:(lia) E) in Q. rewrite AZ, CV in Q. cbn [r0 r1 vx vy] in Q.
  destruct Q as [Q|Q]; [|lra]. replace (2 * (3 * (PI / 4))) with (3 * (PI / 2)) in Q by lra. rewrite sin_3PI2 in Q. lra.
Qed.
Example C107_ex : ~ collinear_xy 4 (array_of cross_pts).
Proof.
  intros (u & v & w & NZ & E). pose proof (E 0%nat ltac:(lia)) as E0. pose proof (E 1%nat ltac:(lia)) as E1. pose proof (E 2%nat ltac:(lia)) as E2.
  cbn in E0, E1, E2. lra.
Qed.

Print Assumptions C78_defined.
Print Assumptions C78_least_squares.
Print Assumptions C78_residuals.
Print Assumptions C80_columns.
Print Assumptions C80_exact_plane_lost.
Print Assumptions C79_coefficients.
Print Assumptions C79_angles.
Print Assumptions C79_methods_agree.
Print Assumptions C107_covariance.
Print Assumptions C107_standard_errors.
Print Assumptions C108_rotated_covariance.
Print Assumptions C108_errors_defined.
Print Assumptions C108_errors_value.
Print Assumptions C108_rotated_covariance_refuted.
