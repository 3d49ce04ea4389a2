(** C203: colours and errors of the planes in the test data of the notebook. *)
From Coq Require Import Reals Lra Lia List Psatz ZArith Bool.
From Verif Require Import RVec Trig MAxes MRecon PRecon LRecon MScript.
Import ListNotations.
Open Scope R_scope.

Lemma in_range_spec : forall c, in_range c = true <-> 1600 < it_z c < 1680.
Proof.
  intro c. unfold in_range. destruct (Rlt_dec 1600 (it_z c)), (Rlt_dec (it_z c) 1680); split; intro; auto; try discriminate; try lra.
Qed.

Lemma kept_spec : forall removed c o, In o (kept removed c) <->
  In o c /\ 1600 < it_z o < 1680 /\ ~ In (it_uid o) removed.
Proof.
  intros removed c o. unfold kept. rewrite !filter_In, in_range_spec, negb_true_iff.
  assert (E : existsb (Nat.eqb (it_uid o)) removed = false <-> ~ In (it_uid o) removed).
  { rewrite <- not_true_iff_false, existsb_exists. split; intros H X; apply H.
    - exists (it_uid o). split; auto. apply Nat.eqb_refl.
    - destruct X as (x & I & E). apply Nat.eqb_eq in E. subst; auto. }
  rewrite E. tauto.
Qed.

Lemma min_of_spec : forall l a, In (min_of a l) (a :: l) /\ forall x, In x (a :: l) -> min_of a l <= x.
Proof.
  induction l as [|b t IH]; intro a; cbn [min_of].
  - split; [left; auto|]. intros x [<-|[]]; lra.
  - destruct (IH (Rmin a b)) as (I & L). split.
    + destruct I as [I|I]; [|right; right; auto]. rewrite <- I.
      unfold Rmin. destruct (Rle_dec a b); [left|right; left]; auto.
    + intros x H. assert (M : min_of (Rmin a b) t <= Rmin a b) by (apply L; left; auto).
      pose proof (Rmin_l a b). pose proof (Rmin_r a b).
      destruct H as [<-|[<-|H]]; [lra|lra|]. apply L; right; auto.
Qed.
Lemma max_of_spec : forall l a, In (max_of a l) (a :: l) /\ forall x, In x (a :: l) -> x <= max_of a l.
Proof.
  induction l as [|b t IH]; intro a; cbn [max_of].
  - split; [left; auto|]. intros x [<-|[]]; lra.
  - destruct (IH (Rmax a b)) as (I & L). split.
    + destruct I as [I|I]; [|right; right; auto]. rewrite <- I.
      unfold Rmax. destruct (Rle_dec a b); [right; left|left]; auto.
    + intros x H. assert (M : Rmax a b <= max_of (Rmax a b) t) by (apply L; left; auto).
      pose proof (Rmax_l a b). pose proof (Rmax_r a b).
      destruct H as [<-|[<-|H]]; [lra|lra|]. apply L; right; auto.
Qed.

Lemma trunc_spec : forall x, 0 <= x -> IZR (trunc x) <= x < IZR (trunc x) + 1.
Proof.
  intros x H. unfold trunc. destruct (Rle_dec 0 x); [|lra]. destruct (archimed x) as (A & B).
  rewrite minus_IZR. lra.
Qed.
Lemma trunc_int : forall k, (0 <= k)%Z -> trunc (IZR k) = k.
Proof.
  intros k H. apply IZR_le in H. destruct (trunc_spec _ H) as (A & B).
  rewrite <- plus_IZR in B. apply lt_IZR in B. apply le_IZR in A. lia.
Qed.

(** heights relative to the lowest and highest *)
Definition fraction (lo hi z : R) : R := (z - lo) / (hi - lo).

Lemma interp6_range : forall lo hi z, lo <= z <= hi ->
  (z = hi -> interp6 lo hi z = 6) /\ (z < hi -> interp6 lo hi z = 6 * fraction lo hi z /\ 0 <= interp6 lo hi z < 6).
Proof.
  intros lo hi z H. unfold interp6, fraction. destruct (Rlt_dec hi z); [lra|]. destruct (Rlt_dec z lo); [lra|]. split; intro E.
  - destruct (Rle_dec hi z); [auto|lra].
  - destruct (Rle_dec hi z); [lra|]. assert (0 < hi - lo) by lra. assert (0 < / (hi - lo)) by (apply Rinv_0_lt_compat; auto).
    assert (0 <= (z - lo) * / (hi - lo)) by (apply Rmult_le_pos; lra).
    assert ((z - lo) * / (hi - lo) < 1).
    { apply Rmult_lt_reg_r with (hi - lo); auto. rewrite Rmult_assoc, Rinv_l by lra. lra. }
    unfold Rdiv. split; lra.
Qed.

Lemma colour_range : forall lo hi o, lo <= it_z o <= hi ->
  (0 <= colour lo hi o <= 6)%Z /\ (colour lo hi o = 0%Z <-> it_z o = hi) /\
  (it_z o < hi -> 6 - IZR (colour lo hi o) <= 6 * fraction lo hi (it_z o) < 7 - IZR (colour lo hi o)).
Proof.
  intros lo hi o H. destruct (interp6_range _ _ _ H) as (A & B). unfold colour.
  destruct (Req_dec (it_z o) hi) as [E|E].
  - rewrite (A E). rewrite (trunc_int 6) by lia. split; [lia|]. split; [|lra]. split; auto.
  - destruct B as (V & P & Q); [lra|]. destruct (trunc_spec _ P) as (T0 & T1).
    assert (trunc (interp6 lo hi (it_z o)) < 6)%Z by (apply lt_IZR; lra).
    assert (0 <= trunc (interp6 lo hi (it_z o)))%Z by (apply Z.lt_succ_r; apply lt_IZR; rewrite succ_IZR; lra).
    split; [lia|]. split; [split; [lia|contradiction]|]. intros _. rewrite minus_IZR, <- V. lra.
Qed.

Lemma list7_ok : forall i, (0 <= i <= 6)%Z -> list7 i = Ok i.
Proof.
  intros i H. unfold list7. destruct (Z.ltb_spec i (-7)); [lia|]. destruct (Z.ltb_spec 6 i); [lia|].
  destruct (Z.ltb_spec i 0); [lia|]. reflexivity.
Qed.
Lemma colours_ok : forall lo hi l, (forall o, In o l -> lo <= it_z o <= hi) ->
  colours lo hi l = Ok (map (colour lo hi) l).
Proof.
  induction l as [|o t IH]; intro H; [reflexivity|]. cbn [colours map].
  rewrite list7_ok. 2:{ apply colour_range. apply H; left; auto. }
  cbn [rbind]. rewrite IH by (intros x X; apply H; right; auto). reflexivity.
Qed.
Lemma combine_map : forall A B (g : A -> B) l, combine l (map g l) = map (fun x => (x, g x)) l.
Proof. induction l; simpl; congruence. Qed.

Lemma coloured_value : forall removed c, kept removed c <> [] -> exists lo hi,
  (exists o, In o (kept removed c) /\ it_z o = lo) /\ (exists o, In o (kept removed c) /\ it_z o = hi) /\
  (forall o, In o (kept removed c) -> lo <= it_z o <= hi) /\
  coloured removed c = Ok (map (fun o => (o, colour lo hi o)) (kept removed c)).
Proof.
  intros removed c NE. unfold coloured. destruct (map it_z (kept removed c)) as [|h t] eqn:E.
  { destruct (kept removed c); [congruence|discriminate]. }
  destruct (min_of_spec t h) as (I & L). destruct (max_of_spec t h) as (J & M). rewrite <- E in I, J.
  assert (B : forall o, In o (kept removed c) -> min_of h t <= it_z o <= max_of h t).
  { intros o Ho. assert (In (it_z o) (h :: t)) by (rewrite <- E; apply in_map; auto). split; auto. }
  exists (min_of h t), (max_of h t). apply in_map_iff in I, J.
  destruct I as (o1 & O1 & I). destruct J as (o2 & O2 & J). split; [exists o1; auto|]. split; [exists o2; auto|]. split; auto.
  rewrite colours_ok by auto. cbn [rbind]. rewrite combine_map. reflexivity.
Qed.

(** Every kept plane, and no other, gets one of the seven colours: the n-th for
    the n-th sixth of the heights from the top down, the first only for the top. *)
Theorem C203_colours : forall removed c, (exists o, In o c /\ 1600 < it_z o < 1680 /\ ~ In (it_uid o) removed) ->
  exists out lo hi, coloured removed c = Ok out /\
  (forall o, In o (map fst out) <-> In o c /\ 1600 < it_z o < 1680 /\ ~ In (it_uid o) removed) /\
  In lo (map it_z (map fst out)) /\ In hi (map it_z (map fst out)) /\
  forall o i, In (o, i) out -> lo <= it_z o <= hi /\ (0 <= i <= 6)%Z /\ (i = 0%Z <-> it_z o = hi) /\
    (it_z o < hi -> (6 - IZR i) / 6 <= fraction lo hi (it_z o) < (7 - IZR i) / 6).
Proof.
  intros removed c (o0 & H0). assert (NE : kept removed c <> []).
  { intro E. apply kept_spec in H0. rewrite E in H0. contradiction. }
  destruct (coloured_value _ _ NE) as (lo & hi & (o1 & I1 & L1) & (o2 & I2 & L2) & B & V).
  assert (F : map fst (map (fun o => (o, colour lo hi o)) (kept removed c)) = kept removed c)
    by (rewrite map_map; simpl; apply map_id).
  eexists _, lo, hi. split. exact V. rewrite F. split. { intro o. apply kept_spec. }
  split. { rewrite <- L1. apply in_map; auto. } split. { rewrite <- L2. apply in_map; auto. }
  intros o i H. apply in_map_iff in H. destruct H as (x & E & I). injection E as -> <-.
  pose proof (B _ I) as R. split; auto. destruct (colour_range _ _ _ R) as (A & C & D). split; auto. split; auto.
  intro T. specialize (D T). lra.
Qed.

(** Higher planes never come later in the map. *)
Theorem C203_order : forall removed c out o i o' i', coloured removed c = Ok out ->
  In (o, i) out -> In (o', i') out -> it_z o <= it_z o' -> (i' <= i)%Z.
Proof.
  intros removed c out o i o' i' H Io Io' L. assert (NE : kept removed c <> []).
  { intro E. unfold coloured in H. rewrite E in H. discriminate. }
  destruct (coloured_value _ _ NE) as (lo & hi & _ & _ & B & V). rewrite V in H. injection H as <-.
  apply in_map_iff in Io, Io'. destruct Io as (x & E & I), Io' as (x' & E' & I'). injection E as -> <-. injection E' as -> <-.
  pose proof (B _ I) as R. pose proof (B _ I') as R'.
  destruct (colour_range _ _ _ R) as (A & C & D). destruct (colour_range _ _ _ R') as (A' & C' & D').
  destruct (Req_dec (it_z o') hi) as [E|E]. { apply C' in E. lia. }
  assert (P' : it_z o' < hi) by lra. assert (P : it_z o < hi) by lra. specialize (D P). specialize (D' P').
  assert (fraction lo hi (it_z o) <= fraction lo hi (it_z o')).
  { unfold fraction, Rdiv. apply Rmult_le_compat_r; [|lra]. left. apply Rinv_0_lt_compat. lra. }
  apply Z.lt_succ_r. apply lt_IZR. rewrite succ_IZR. lra.
Qed.

(** No plane left: the minimum of no heights raises. *)
Theorem C203_empty : forall removed c, (forall o, In o c -> 1600 < it_z o < 1680 -> In (it_uid o) removed) ->
  coloured removed c = Raise ValueError.
Proof.
  intros removed c H. assert (E : kept removed c = []).
  { destruct (kept removed c) as [|o t] eqn:E; auto. exfalso.
    assert (I : In o (kept removed c)) by (rewrite E; left; auto). apply kept_spec in I. destruct I as (A & B & C). auto. }
  unfold coloured. rewrite E. reflexivity.
Qed.

(** The error of "0.1 degrees" is converted to radians for a constructor that takes
    degrees: the reported error is less than 2 thousandths of a degree. *)
Theorem C203_degrees_refuted : forall strike dip, exists p, in_situ strike dip = Some p /\
  exists e, rp_angular_errors p = [e; e] /\ 0 < e < 2 / 1000 /\ radians e <> radians (1 / 10).
Proof.
  intros s d. unfold in_situ. destruct (recon_value s d 0 [1 / 10 * PI / 180; 1 / 10 * PI / 180] 1) as (p & E & V).
  exists p. split; auto. exists (1 / 10 * PI / 180).
  assert (rp_angular_errors p = [1 / 10 * PI / 180; 1 / 10 * PI / 180]) as ->.
  { clear V. unfold ReconstructedPlane in E. destruct (MSphere.pole s d); [|discriminate].
    cbn [obind] in E. destruct (MSphere.rake_line s d 0); [|discriminate]. cbn [obind] in E. injection E as <-. reflexivity. }
  split; auto. pose proof PI_RGT_0. pose proof PI_4. assert (3.6 <= 4) by lra.
  assert (X : PI < 3.6). { pose proof PI_ineq 1 as Q. unfold tg_alt, PI_tg in Q. simpl in Q. lra. }
  split; [lra|]. intro R. unfold radians in R.
  assert (1 / 10 * PI / 180 = 1 / 10).
  { apply Rmult_eq_reg_r with (PI / 180); [|lra]. lra. }
  lra.
Qed.

Example C203_ex : exists out, coloured [7%nat] [mkItem 1 1610; mkItem 7 1650; mkItem 2 1670; mkItem 3 1620; mkItem 4 1500] = Ok out /\
  In (mkItem 2 1670, 0%Z) out /\ In (mkItem 1 1610, 6%Z) out /\ In (mkItem 3 1620, 5%Z) out /\ length out = 3%nat.
Proof.
  set (c := [mkItem 1 1610; mkItem 7 1650; mkItem 2 1670; mkItem 3 1620; mkItem 4 1500]).
  assert (K : kept [7%nat] c = [mkItem 1 1610; mkItem 2 1670; mkItem 3 1620]).
  { unfold kept, c, in_range; simpl filter. cbn [it_z].
    repeat match goal with |- context [Rlt_dec ?a ?b] => destruct (Rlt_dec a b); try (exfalso; lra) end. reflexivity. }
  destruct (coloured_value [7%nat] c) as (lo & hi & (o1 & I1 & L1) & (o2 & I2 & L2) & B & V).
  { rewrite K. discriminate. }
  rewrite K in *. rewrite V.
  assert (lo = 1610).
  { pose proof (B (mkItem 1 1610) ltac:(simpl; auto)). destruct I1 as [<-|[<-|[<-|[]]]]; simpl in *; lra. }
  assert (hi = 1670).
  { pose proof (B (mkItem 2 1670) ltac:(simpl; auto)). destruct I2 as [<-|[<-|[<-|[]]]]; simpl in *; lra. }
  subst lo hi. rewrite H, H0 in *.
  assert (C1 : colour 1610 1670 (mkItem 1 1610) = 6%Z).
  { unfold colour. destruct (interp6_range 1610 1670 1610) as (_ & X); [lra|]. destruct X as (E & _); [lra|].
    cbn [it_z]. rewrite E. unfold fraction. replace (6 * ((1610 - 1610) / (1670 - 1610))) with (IZR 0) by (simpl; field). rewrite trunc_int; lia. }
  assert (C2 : colour 1610 1670 (mkItem 2 1670) = 0%Z).
  { unfold colour. destruct (interp6_range 1610 1670 1670) as (X & _); [lra|].
    cbn [it_z]. rewrite X by auto. rewrite (trunc_int 6); lia. }
  assert (C3 : colour 1610 1670 (mkItem 3 1620) = 5%Z).
  { unfold colour. destruct (interp6_range 1610 1670 1620) as (_ & X); [lra|]. destruct X as (E & _); [lra|].
    cbn [it_z]. rewrite E. unfold fraction. replace (6 * ((1620 - 1610) / (1670 - 1610))) with (IZR 1) by (simpl; field). rewrite trunc_int; lia. }
  eexists. split. reflexivity. simpl. rewrite C1, C2, C3. auto 8.
Qed.

Print Assumptions C203_colours.
Print Assumptions C203_order.
Print Assumptions C203_empty.
Print Assumptions C203_degrees_refuted.
