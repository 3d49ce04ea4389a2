(** C236: repeated observations and regressions. *)
From Coq Require Import Reals Lra Lia List Arith Psatz Permutation.
From Verif Require Import RVec Trig SpecPlane SpecRepeat LNum SpecConics MConics LConics SpecLinear MAxes MLinear LLinear
  MPca LPca PLinear PLever PPress PSteep PRepeat.
Import ListNotations.
Notation length := List.length.
Open Scope R_scope.

Lemma repeated_in : forall k p pts, (0 < k)%nat -> In p pts -> In p (repeated k pts).
Proof. intros [|k] p pts K I; [lia|]. unfold repeated. cbn [repeat concat]. apply in_or_app. auto. Qed.

Definition place (c0 c1 : R) (p : vec3) (j : nat) : R := match j with O => vx p - c0 | 1%nat => vy p - c1 | _ => 1 end.
Lemma normal_list : forall pts i j, normal_matrix (length pts) (array_of pts) i j =
  sumf (fun p => place (col_mean (length pts) (array_of pts) 0) (col_mean (length pts) (array_of pts) 1) p i *
                 place (col_mean (length pts) (array_of pts) 0) (col_mean (length pts) (array_of pts) 1) p j) pts.
Proof.
  intros pts i j. rewrite <- sumn_list. unfold normal_matrix. apply sumn_ext. intros k _.
  destruct i as [|[|i]], j as [|[|j]]; reflexivity.
Qed.

(** Repeating all observations, in any order, changes neither the slopes nor the covariance: the
    errors reported do not shrink with the number of measurements. *)
Theorem C236_repeated : forall inv pts pts' k m V, numpy_inv inv -> (0 < k)%nat -> pts <> [] ->
  Permutation pts' (repeated k pts) ->
  rbind (Regression (length pts) 3 (array_of pts)) (coefs inv) = Ok m ->
  rbind (Regression (length pts) 3 (array_of pts)) (covariance inv) = Ok V ->
  exists m' V', rbind (Regression (length pts') 3 (array_of pts')) (coefs inv) = Ok m' /\
  rbind (Regression (length pts') 3 (array_of pts')) (covariance inv) = Ok V' /\
  (forall i, (i < 3)%nat -> m' i = m i) /\ (forall i j, (i < 3)%nat -> (j < 3)%nat -> V' i j = V i j).
Proof.
  intros inv pts pts' k m V HI K NE PE F EV.
  assert (SF : forall G : vec3 -> R, sumf G pts' = INR k * sumf G pts) by (intros G; rewrite (sumf_perm _ _ _ _ PE); apply repeated_sumf).
  assert (RL : length pts' = (k * length pts)%nat) by (rewrite (Permutation_length PE); apply repeated_length).
  pose proof (lt_0_INR k K) as KP.
  set (r := length pts) in *. set (r' := length pts') in *. assert (R0 : (0 < r)%nat) by (unfold r; destruct pts; [congruence|simpl; lia]).
  assert (R3 : (3 <= r)%nat) by (apply (few_collinear r (array_of pts) R0), (proj2 (C78_defined inv r (array_of pts) HI R0)); eauto).
  assert (R0' : (3 <= r')%nat) by nia.
  pose proof (INR0 r R0) as RP. pose proof (INR0 r' ltac:(lia)) as RP'. assert (RR : INR r' = INR k * INR r) by (rewrite RL; apply mult_INR).
  set (A := array_of pts) in *. set (A' := array_of pts') in *.
  assert (CM : forall j, col_mean r' A' j = col_mean r A j).
  { intros j. unfold col_mean, r, r', A, A'. 
    assert (X : forall l, sumn (length l) (fun i => array_of l i j) = sumf (fun p => match j with O => vx p | 1%nat => vy p | _ => vz p end) l)
      by (intros l; rewrite <- sumn_list; apply sumn_ext; intros i _; destruct j as [|[|j]]; reflexivity).
    rewrite !X, SF. fold r r'. rewrite RR. field. lra. }
  assert (VS : forall a b c, vsse r' A' a b c = INR k * vsse r A a b c) by (intros a b c; unfold r, r', A, A'; rewrite !vsse_list; apply SF).
  assert (NC : ~ collinear_xy r' A').
  { assert (N : ~ collinear_xy r A) by (apply (proj2 (C78_defined inv r A HI R0)); eauto).
    intros (u & v & w & U & H). apply N. exists u, v, w. split; [exact U|]. intros i I.
    assert (IN : In (nth i pts vzero) pts') by (eapply Permutation_in; [apply Permutation_sym; exact PE|apply repeated_in; auto; now apply nth_In]).
    destruct (In_nth pts' _ vzero IN) as (i' & I' & E). specialize (H i' I'). unfold A', array_of in H. rewrite E in H. exact H. }
  destruct (proj1 (proj2 (C78_defined inv r' A' HI ltac:(lia))) NC) as [m' F'].
  destruct (covariance3 inv r A m HI R0 F) as (B & V0 & HB & E & W). rewrite E in EV. injection EV as ->.
  destruct (covariance3 inv r' A' m' HI ltac:(lia) F') as (B' & V' & HB' & E' & W').
  exists m', V'. split; [exact F'|]. split; [exact E'|].
  destruct (C78_least_squares inv r A m HI R0 F) as (M2 & LS). destruct (C78_least_squares inv r' A' m' HI ltac:(lia) F') as (M2' & LS'). cbv zeta in *.
  rewrite !CM in *. set (c0 := col_mean r A 2 - m 0%nat * _ - _) in *. set (c1 := col_mean r A 2 - m' 0%nat * _ - _) in *.
  destruct (proj2 (LS' (m 0%nat) (m 1%nat) c0)) as (M0 & M1 & _).
  { rewrite !VS. apply Rmult_le_compat_l; [lra|]. apply LS. }
  split.
  - intros i I. destruct i as [|[|[|i]]]; try lia; congruence.
  - intros i j I J. rewrite W, W'.
    assert (C1 : c1 = c0) by (unfold c1, c0; rewrite M0, M1; reflexivity). rewrite <- M0, <- M1, C1, VS.
    destruct (Nat.eqb_spec r 3) as [T|T].
    { assert (Z : vsse r A (m 0%nat) (m 1%nat) c0 = 0).
      { unfold c0. rewrite rss_vsse. clear - T F HI. revert F. rewrite T. intros F. exact (three_exact inv A m HI F). }
      rewrite Z. destruct (r' =? 3)%nat; ring. }
    destruct (Nat.eqb_spec r' 3); [nia|].
    assert (NM : meq 3 3 (normal_matrix r' A') (fun i j => INR k * normal_matrix r A i j)).
    { intros x y _ _. unfold r, r', A, A'. rewrite !normal_list. fold r r' A A'. rewrite !CM. apply SF. }
    assert (HK : is_inverse 3 (normal_matrix r A) (fun i j => INR k * B' i j)).
    { destruct HB' as [P1 P2]. split; intros x y X Y; [rewrite <- (P1 x y X Y)|rewrite <- (P2 x y X Y)]; unfold mulm; apply sumn_ext; intros l L; rewrite NM by auto; ring. }
    pose proof (inverse_unique 3 _ _ _ _ (meq_refl 3 3 (normal_matrix r A)) HB HK i j I J) as U. cbv beta in U. rewrite U. ring.
Qed.

Example C236_ex : forall inv, numpy_inv inv ->
  let pts := [V3 1 1 1; V3 1 (-1) 1; V3 (-1) 1 (-1); V3 (-1) (-1) 0] in
  exists m V m' V', rbind (Regression 4 3 (array_of pts)) (coefs inv) = Ok m /\
  rbind (Regression 4 3 (array_of pts)) (covariance inv) = Ok V /\ 0 < V 0%nat 0%nat /\
  rbind (Regression 400 3 (array_of (repeated 100 pts))) (coefs inv) = Ok m' /\
  rbind (Regression 400 3 (array_of (repeated 100 pts))) (covariance inv) = Ok V' /\
  m' 0%nat = m 0%nat /\ V' 0%nat 0%nat = V 0%nat 0%nat.
Proof.
  intros inv HI pts.
  assert (N : ~ collinear_xy 4 (array_of pts)).
  { intros (u & v & w & U & H). pose proof (H 0%nat ltac:(lia)) as H0. pose proof (H 1%nat ltac:(lia)) as H1. pose proof (H 2%nat ltac:(lia)) as H2.
    unfold pts, array_of in H0, H1, H2. cbn [nth vx vy vz] in H0, H1, H2. lra. }
  destruct (proj1 (proj2 (C78_defined inv 4 _ HI ltac:(lia))) N) as [m F].
  destruct (covariance3 inv 4 _ m HI ltac:(lia) F) as (B & V & HB & E & W).
  destruct (C236_repeated inv pts (repeated 100 pts) 100 m V HI ltac:(lia) ltac:(discriminate) (Permutation_refl _) F E) as (m' & V' & F' & E' & MM & VV).
  exists m, V, m', V'. split; [exact F|]. split; [exact E|]. split; [|split; [exact F'|split; [exact E'|split; [apply MM; lia|apply VV; lia]]]].
  assert (M : m 0%nat = 3 / 4 /\ m 1%nat = - 1 / 4).
  { destruct (fitted_residual inv 4 _ m HI ltac:(lia) F) as (_ & X & Y). revert X Y.
    unfold fitted, col_mean, pts, array_of. cbn [sumn nth vx vy vz]. simpl INR. intros X Y. lra. }
  rewrite W. cbn [Nat.eqb]. destruct M as [-> ->].
  destruct (least_form 4 3 (regressor 4 (array_of pts)) B 0 HB ltac:(lia)) as [Q L].
  assert (P : 0 < B 0%nat 0%nat).
  { specialize (L (fun l => idn l 0%nat)). unfold idn at 1 2 in L. cbn [Nat.eqb] in L.
    assert (0 <= B 0%nat 0%nat) by (rewrite <- Q; apply sumn_nonneg; intros; apply Rle_0_sqr).
    destruct (Req_dec (B 0%nat 0%nat) 0) as [Z|]; [rewrite Z in L; lra|lra]. }
  apply Rmult_lt_0_compat; [|exact P]. unfold vsse, col_mean, pts, array_of. cbn [sumn nth vx vy vz]. simpl INR. cbv zeta. lra.
Qed.

Print Assumptions C236_repeated.
