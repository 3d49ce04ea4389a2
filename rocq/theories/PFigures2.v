(** Properties C150-C154: the aligned cross-sections. *)
From Coq Require Import Reals Lra Lia List Psatz Arith Bool ZArith String Permutation.
Set Warnings "-abstract-large-number".
From Verif Require Import RVec Trig SpecPlane MPca LSvd LPca LFit LAngles LFit2 LExamples PPca MAxes LAxes PAxes MSphere MRecon LRecon PRecon MStereo LNum SpecConics MConics LConics MHyper PHyper MShape PCompare MFigures.
Import ListNotations.
Notation length := List.length.
Open Scope R_scope.

(** * Ranges *)
Lemma lmin_spec : forall l x, (In (lmin x l) (x :: l)) /\ (forall y, In y (x :: l) -> lmin x l <= y).
Proof.
  induction l as [|a l IH]; intros x.
  - cbn. split; [now left|]. intros y [->|[]]. lra.
  - unfold lmin. cbn [fold_left]. destruct (IH (Rmin x a)) as [I B]. fold (lmin (Rmin x a) l). split.
    + destruct I as [E|I]; [|right; right; exact I]. rewrite <- E. unfold Rmin. destruct (Rle_dec x a); [now left|right; now left].
    + pose proof (B _ (or_introl eq_refl)) as B0. pose proof (Rmin_l x a). pose proof (Rmin_r x a).
      intros y [->|[->|Y]]; [lra|lra|]. apply B. now right.
Qed.
Lemma lmax_spec : forall l x, (In (lmax x l) (x :: l)) /\ (forall y, In y (x :: l) -> y <= lmax x l).
Proof.
  induction l as [|a l IH]; intros x.
  - cbn. split; [now left|]. intros y [->|[]]. lra.
  - unfold lmax. cbn [fold_left]. destruct (IH (Rmax x a)) as [I B]. fold (lmax (Rmax x a) l). split.
    + destruct I as [E|I]; [|right; right; exact I]. rewrite <- E. unfold Rmax. destruct (Rle_dec x a); [right; now left|now left].
    + pose proof (B _ (or_introl eq_refl)) as B0. pose proof (Rmax_l x a). pose proof (Rmax_r x a).
      intros y [->|[->|Y]]; [lra|lra|]. apply B. now right.
Qed.
Lemma minmax_spec : forall g A lo hi, minmax g A = Ok (lo, hi) ->
  (exists p, In p A /\ g p = lo) /\ (exists p, In p A /\ g p = hi) /\ forall p, In p A -> lo <= g p <= hi.
Proof.
  intros g [|a A] lo hi H; cbn [minmax map] in H; [discriminate|]. unfold minmax in H. cbn [map] in H. injection H as <- <-.
  destruct (lmin_spec (map g A) (g a)) as [I B]. destruct (lmax_spec (map g A) (g a)) as [J C].
  change (g a :: map g A) with (map g (a :: A)) in *. split; [|split].
  - apply in_map_iff in I. destruct I as (p & E & I). now exists p.
  - apply in_map_iff in J. destruct J as (p & E & J). now exists p.
  - intros p I'. split; [apply B|apply C]; now apply in_map.
Qed.
Lemma minmax_ok : forall g A, A <> [] -> exists lo hi, minmax g A = Ok (lo, hi).
Proof. intros g [|a A] H; [congruence|]. eexists. eexists. reflexivity. Qed.

(** * C150 the points *)
(** what a fit draws is its centred data in the frame of its axes, always *)
Lemma aligned_value : forall svd arr w f, lapack svd -> PCAOrientation svd arr (Some w) None = Ok f ->
  aligned_points f = map (mv (p_axes f)) (p_arr f).
Proof.
  intros svd arr w f L F. destruct (C09_normal _ _ _ _ L F) as (_ & Z & _). unfold aligned_points.
  destruct (Rlt_dec _ _); [lra|reflexivity].
Qed.
Lemma mv_dots : forall m p, mv m p = V3 (dot (r0 m) p) (dot (r1 m) p) (dot (r2 m) p).
Proof. reflexivity. Qed.

(** the height drawn is the signed distance from the fitted plane, upwards if the third
    axis points up and downwards otherwise: the reversal in the code is never made *)
Theorem C150_heights : forall svd arr w f, lapack svd -> PCAOrientation svd arr (Some w) None = Ok f ->
  length (aligned_points f) = length (p_arr f) /\
  forall i p q, nth_error (p_arr f) i = Some p -> nth_error (aligned_points f) i = Some q ->
  nrm2 q = nrm2 p /\ vx q = dot p (r0 (p_axes f)) /\ vy q = dot p (r1 (p_axes f)) /\
  (0 <= vz (r2 (p_axes f)) -> vz q = dot p (p_normal f)) /\ (vz (r2 (p_axes f)) < 0 -> vz q = - dot p (p_normal f)).
Proof.
  intros svd arr w f L F. rewrite (aligned_value _ _ _ _ L F), map_length. split; [reflexivity|].
  intros i p q P Q. rewrite nth_error_map, P in Q. cbn [option_map] in Q. injection Q as <-.
  destruct (weighted_inv _ _ _ _ L F) as (_ & _ & u & s0 & Hs & _ & _ & _ & _ & _ & _ & _ & D).
  pose proof (svd_v _ _ _ _ Hs) as O. rewrite mv_dots. cbn [vx vy vz].
  destruct D as (X & _).
  assert (NE : p_normal f = if Rlt_dec (vz (r2 (p_axes f))) 0 then vneg (r2 (p_axes f)) else r2 (p_axes f)).
  { unfold p_normal. rewrite X. unfold derived_normal. destruct (Rlt_dec _ _); reflexivity. }
  split; [|split; [apply dot_comm|split; [apply dot_comm|split]]].
  - rewrite <- (parseval _ p O). unfold nrm2. unfold dot at 1. cbn [vx vy vz]. ring.
  - intros Z. rewrite NE. destruct (Rlt_dec _ _); [lra|]. apply dot_comm.
  - intros Z. rewrite NE. destruct (Rlt_dec _ _); [|lra]. rewrite dot_neg_r, (dot_comm p). ring.
Qed.

(** so a point above the plane can be drawn below it *)
Lemma opp_axes : forall a f1 f2, (3 <= length a)%nat -> PCAOrientation svd_ref a None None = Ok f1 ->
  PCAOrientation svd_opp a None None = Ok f2 -> p_axes f2 = mneg (p_axes f1).
Proof.
  intros a f1 f2 LA F1 F2. unfold PCAOrientation, run_svd in F1, F2. rewrite centered_length in F1, F2.
  destruct (Nat.ltb_spec (length a) 3); [lia|]. rewrite has_zero_ones in F1, F2.
  unfold svd_opp in F2. destruct (svd_ref _) as [[u s] v]. injection F1 as <-. injection F2 as <-. reflexivity.
Qed.
Theorem C150_upside_down_refuted : exists svd arr f i p q, lapack svd /\ PCAOrientation svd arr None None = Ok f /\
  nth_error (p_arr f) i = Some p /\ nth_error (aligned_points f) i = Some q /\ 0 < dot p (p_normal f) /\ vz q < 0.
Proof.
  assert (K : exists svd f, lapack svd /\ PCAOrientation svd (axis_data 3 2 1) None None = Ok f /\ vz (r2 (p_axes f)) < 0).
  { destruct (axis_fit 3 2 1) as [f1 F1]. destruct (fit_exists svd_opp (axis_data 3 2 1) svd_opp_ok) as [f2 F2]. { simpl; lia. }
    pose proof (opp_axes (axis_data 3 2 1) _ _ ltac:(simpl; lia) F1 F2) as A.
    pose proof (axis_normal _ _ lapack_ref F1) as N1.
    destruct (fit_inv _ _ _ lapack_ref F1) as (_ & _ & _ & _ & _ & _ & _ & _ & _ & _ & (X & _)).
    unfold p_normal in N1. rewrite X in N1. unfold derived_normal in N1.
    destruct (Rlt_dec (vz (r2 (p_axes f1))) 0) as [h|h].
    - exists svd_ref, f1. split; [exact lapack_ref|]. split; auto.
    - exists svd_opp, f2. split; [exact svd_opp_ok|]. split; auto. rewrite A.
      replace (r2 (mneg (p_axes f1))) with (vneg ez) by (rewrite <- N1; destruct (p_axes f1); reflexivity). vunf. lra. }
  destruct K as (svd & f & L & F & Z). exists svd, (axis_data 3 2 1), f, 4%nat, (V3 0 0 1).
  pose proof (axis_normal _ _ L F) as N.
  destruct (fit_inv _ _ _ L F) as (_ & u & m & _ & _ & _ & EA & _). rewrite axis_centered in EA.
  destruct (C150_heights svd _ ones f L F) as [LE H]. rewrite EA in H, LE.
  destruct (nth_error (aligned_points f) 4) as [q|] eqn:Q.
  2:{ apply nth_error_None in Q. rewrite LE in Q. cbn in Q. lia. }
  exists q. destruct (H 4%nat (V3 0 0 1) q eq_refl Q) as (_ & _ & _ & _ & HZ). specialize (HZ Z).
  rewrite EA. repeat split; auto; rewrite ?HZ, N; vunf; lra.
Qed.

(** * C151 thinning *)
Lemma ten_thousand : (10000 = 100 * 100)%nat. Proof. reflexivity. Qed.
Lemma ceil_div_spec : forall n m, (0 < m)%nat -> (n <= ceil_div n m * m < n + m)%nat.
Proof.
  intros n m M. unfold ceil_div. pose proof (Nat.div_mod (n + m - 1) m ltac:(lia)) as D.
  pose proof (Nat.mod_upper_bound (n + m - 1) m ltac:(lia)) as B. nia.
Qed.
Theorem C151_thinned : forall A, let B := sparse_points true A in
  (length B <= 10000)%nat /\ ((length A <= 10000)%nat -> B = A) /\ incl B A /\
  (A <> [] -> hd vzero B = hd vzero A /\ (2 * length B > Nat.min (length A) 10000)%nat) /\
  sparse_points false A = A.
Proof.
  intros A B. unfold B, sparse_points. rewrite ten_thousand. set (m := (100 * 100)%nat). assert (M : (0 < m)%nat) by (unfold m; lia).
  clearbody m. destruct (Nat.ltb_spec m (length A)) as [H|H].
  - set (k := ceil_div (length A) m). pose proof (ceil_div_spec (length A) m M) as K. fold k in K.
    assert (K0 : (0 < k)%nat) by nia. pose proof (ceil_div_spec (length A) k K0) as C.
    assert (SL : length (stride k A) = ceil_div (length A) k) by (unfold stride; now rewrite map_length, seq_length).
    rewrite SL. split; [nia|]. split; [lia|]. split.
    + intros p P. unfold stride in P. apply in_map_iff in P. destruct P as (i & <- & I). apply in_seq in I. apply nth_In. nia.
    + split; [|reflexivity]. intros NE. split.
      * unfold stride. destruct (ceil_div (length A) k) eqn:E; [destruct A; [congruence|cbn in C; lia]|].
        cbn [seq map hd]. rewrite Nat.mul_0_l. destruct A; [congruence|reflexivity].
      * rewrite Nat.min_r by lia. nia.
  - split; [lia|]. split; [auto|]. split; [apply incl_refl|]. split; [|reflexivity]. intros NE. split; [reflexivity|].
    rewrite Nat.min_l by lia. destruct A; [congruence|cbn [length]; lia].
Qed.
(** no point is far from a drawn one: the drawn ones are every k-th *)
Theorem C151_regular : forall A, exists k, (0 < k)%nat /\ ((k - 1) * 10000 <= length A)%nat /\
  forall i p, nth_error (sparse_points true A) i = Some p <-> nth_error A (i * k) = Some p.
Proof.
  intros A. unfold sparse_points. rewrite ten_thousand. set (m := (100 * 100)%nat). assert (M : (0 < m)%nat) by (unfold m; lia).
  clearbody m. destruct (Nat.ltb_spec m (length A)) as [H|H].
  - set (k := ceil_div (length A) m). pose proof (ceil_div_spec (length A) m M) as K. fold k in K.
    assert (K0 : (0 < k)%nat) by nia. pose proof (ceil_div_spec (length A) k K0) as C.
    exists k. split; [auto|]. split; [nia|]. intros i p. unfold stride. rewrite nth_error_map.
    destruct (Nat.lt_ge_cases i (ceil_div (length A) k)) as [I|I].
    + rewrite (nth_error_nth' (seq 0 _) 0%nat) by now rewrite seq_length. rewrite seq_nth by auto. cbn [option_map Nat.add].
      assert (i * k < length A)%nat by nia. now rewrite (nth_error_nth' A vzero).
    + rewrite (proj2 (nth_error_None (seq 0 _) i)) by now rewrite seq_length.
      pose proof (Nat.mul_le_mono_r _ _ k I).
      rewrite (proj2 (nth_error_None A (i * k))) by lia. split; discriminate.
  - exists 1%nat. split; [lia|]. split; [lia|]. intros i p. now rewrite Nat.mul_1_r.
Qed.

(** * C152 extents *)
(** the centred coordinates of a fit straddle zero *)
Lemma coord_sum : forall svd arr w f k, lapack svd -> PCAOrientation svd arr (Some w) None = Ok f ->
  sumf (fun q => dot k q) (aligned_points f) = 0.
Proof.
  intros svd arr w f k L F. rewrite (aligned_value _ _ _ _ L F), sumf_map.
  destruct (weighted_inv _ _ _ _ L F) as (_ & _ & u & s0 & Hs & _ & _ & EA & _).
  rewrite EA. rewrite (sumf_ext _ _ (fun p => dot p (vm k (p_axes f)))).
  2:{ intros [] _. destruct k, (p_axes f) as [[] [] []]. munf. ring. }
  rewrite dot_vsum, centered_sum. apply dot_zero_l.
Qed.
Lemma straddle : forall svd arr w f k lo hi, lapack svd -> PCAOrientation svd arr (Some w) None = Ok f ->
  minmax (dot k) (aligned_points f) = Ok (lo, hi) -> lo <= 0 <= hi.
Proof.
  intros svd arr w f k lo hi L F M. pose proof (coord_sum _ _ _ _ k L F) as S0.
  destruct (minmax_spec _ _ _ _ M) as ((p & P & _) & _ & B).
  assert (N : 0 < INR (length (aligned_points f))) by (apply lt_0_INR; destruct (aligned_points f); [destruct P|cbn; lia]).
  assert (LO : sumf (fun _ => lo) (aligned_points f) <= sumf (fun q => dot k q) (aligned_points f)) by (apply sumf_le; intros a I; apply B; auto).
  assert (HI : sumf (fun q => dot k q) (aligned_points f) <= sumf (fun _ => hi) (aligned_points f)) by (apply sumf_le; intros a I; apply B; auto).
  rewrite sumf_const, S0 in LO, HI. split; nra.
Qed.
Lemma minmax_dot : forall A, minmax vx A = minmax (dot ex) A /\ minmax vy A = minmax (dot ey) A /\ minmax vz A = minmax (dot ez) A.
Proof.
  intros A. unfold minmax. repeat split; (match goal with |- context [map ?g A] => idtac end);
    [rewrite (map_ext vx (dot ex))|rewrite (map_ext vy (dot ey))|rewrite (map_ext vz (dot ez))]; auto; intros []; vunf; ring.
Qed.
(** the number printed as the greatest residual is the distance between the two extreme
    ones: between once and twice the greatest *)
Theorem C152_residual : forall svd arr w f lo hi, lapack svd -> PCAOrientation svd arr (Some w) None = Ok f ->
  minmax vz (aligned_points f) = Ok (lo, hi) ->
  (forall p, In p (p_arr f) -> Rabs (dot p (p_normal f)) <= hi - lo) /\
  (exists p, In p (p_arr f) /\ hi - lo <= 2 * Rabs (dot p (p_normal f))).
Proof.
  intros svd arr w f lo hi L F M. assert (M' := M). rewrite (proj2 (proj2 (minmax_dot _))) in M'.
  pose proof (straddle _ _ _ _ _ _ _ L F M') as ST. destruct (minmax_spec _ _ _ _ M) as ((p & P & EP) & (q & Q & EQ) & B).
  assert (K : forall p, In p (p_arr f) -> In (mv (p_axes f) p) (aligned_points f) /\ Rabs (vz (mv (p_axes f) p)) = Rabs (dot p (p_normal f))).
  { intros x I. rewrite (aligned_value _ _ _ _ L F). split; [now apply in_map|]. rewrite mv_dots. cbn [vz]. rewrite dot_comm.
    destruct (C09_normal _ _ _ _ L F) as (_ & _ & [SL|SL] & _); rewrite SL; [reflexivity|]. now rewrite dot_neg_r, Rabs_Ropp. }
  split.
  - intros x I. destruct (K x I) as [J E]. rewrite <- E. specialize (B _ J). apply Rabs_le. lra.
  - rewrite (aligned_value _ _ _ _ L F) in P, Q. apply in_map_iff in P, Q. destruct P as (p0 & <- & P), Q as (q0 & <- & Q).
    destruct (Rle_dec (- lo) hi) as [h|h]; [exists q0|exists p0]; (split; [auto|]); destruct (K _ Q) as [_ E1]; destruct (K _ P) as [_ E2].
    + rewrite <- E1, EQ, Rabs_right by lra. lra.
    + rewrite <- E2, EP, Rabs_left1 by lra. lra.
Qed.
Theorem C152_label_refuted : exists svd arr f lo hi, lapack svd /\ PCAOrientation svd arr None None = Ok f /\
  minmax vz (aligned_points f) = Ok (lo, hi) /\ forall p, In p (p_arr f) -> 2 * Rabs (dot p (p_normal f)) <= hi - lo /\ 0 < hi - lo.
Proof.
  destruct (axis_fit 3 2 1) as [f F]. exists svd_ref, (axis_data 3 2 1), f.
  destruct (fit_inv _ _ _ lapack_ref F) as (_ & u & m & _ & _ & _ & EA & _). rewrite axis_centered in EA.
  pose proof (aligned_value _ _ ones _ lapack_ref F) as AV.
  destruct (minmax_ok vz (aligned_points f)) as (lo & hi & M). { rewrite AV, EA. discriminate. }
  exists lo, hi. split; [exact lapack_ref|]. split; [auto|]. split; [auto|].
  pose proof (axis_normal _ _ lapack_ref F) as N. destruct (C152_residual _ _ ones _ _ _ lapack_ref F M) as [U _].
  destruct (minmax_spec _ _ _ _ M) as (_ & _ & B).
  destruct (C09_normal _ _ ones _ lapack_ref F) as (_ & _ & SL & _). rewrite N in SL.
  assert (R2 : r2 (p_axes f) = ez \/ r2 (p_axes f) = vneg ez) by (destruct SL as [E|E]; [left|right; rewrite E, vneg_invol]; auto).
  assert (B1 := B (mv (p_axes f) (V3 0 0 1))). assert (B2 := B (mv (p_axes f) (V3 0 0 (- (1))))).
  rewrite AV, EA in B1, B2. specialize (B1 (in_map _ (axis_data 3 2 1) (V3 0 0 1) ltac:(unfold axis_data; cbn; tauto))).
  specialize (B2 (in_map _ (axis_data 3 2 1) (V3 0 0 (- (1))) ltac:(unfold axis_data; cbn; tauto))).
  rewrite mv_dots in B1, B2. cbn [vz] in B1, B2.
  assert (W : 2 <= hi - lo) by (destruct R2 as [E|E]; rewrite E in B1, B2; revert B1 B2; vunf; lra).
  intros p I. split; [|lra]. rewrite N, EA in *. assert (Rabs (dot p ez) <= 1); [|lra].
  unfold axis_data in I. cbn [In] in I. apply Rabs_le. repeat (destruct I as [<-|I]; [vunf; lra|]). destruct I.
Qed.
(** the figure has a height, at least three, exactly when the points do not all coincide *)
Theorem C152_height : forall svd arr f lo0 hi0 lo1 hi1 lo2 hi2, lapack svd -> PCAOrientation svd arr None None = Ok f ->
  minmax vx (aligned_points f) = Ok (lo0, hi0) -> minmax vy (aligned_points f) = Ok (lo1, hi1) -> minmax vz (aligned_points f) = Ok (lo2, hi2) ->
  (figure_height (hi0 - lo0) (hi1 - lo1) (hi2 - lo2) = None <-> forall p q, In p arr -> In q arr -> p = q) /\
  forall h, figure_height (hi0 - lo0) (hi1 - lo1) (hi2 - lo2) = Some h ->
   3 <= h /\ (3 < h -> h * (hi0 - lo0) = 12 * (2 * (hi2 - lo2) + (hi1 - lo1))).
Proof.
  intros svd arr f lo0 hi0 lo1 hi1 lo2 hi2 L F M0 M1 M2. assert (F' : PCAOrientation svd arr (Some ones) None = Ok f) by exact F.
  destruct (fit_inv _ _ _ L F) as (Hn & u & m & Hs & Hm & _ & EA & _).
  pose proof (aligned_value _ _ _ _ L F') as AV. destruct (minmax_spec _ _ _ _ M0) as ((p & P & EP) & (q & Q & EQ) & B).
  assert (M0' := M0). rewrite (proj1 (minmax_dot _)) in M0'. pose proof (straddle _ _ _ _ _ _ _ L F' M0') as ST.
  split.
  - unfold figure_height. destruct (Req_EM_T (hi0 - lo0) 0) as [Z|Z]; (split; [|auto]); try discriminate.
    + intros _. assert (V0 : vx (p_s f) * vx (p_s f) = 0).
      { destruct (Q_axes _ _ _ _ Hs) as (A0 & _). rewrite <- A0. unfold LPca.Q. rewrite (sumf_ext _ _ (fun _ => 0)); [rewrite sumf_const; ring|].
        intros x I. assert (dot x (r0 (p_axes f)) = 0) as ->; [|ring]. rewrite <- EA in I.
        assert (J : In (mv (p_axes f) x) (aligned_points f)) by (rewrite AV; now apply in_map).
        specialize (B _ J). rewrite mv_dots in B. cbn [vx] in B. rewrite dot_comm. lra. }
      pose proof (svd_s01 _ _ _ _ Hs) as S1. pose proof (svd_s12 _ _ _ _ Hs) as S2. pose proof (svd_s2 _ _ _ _ Hs) as S3.
      assert (VX : vx (p_s f) = 0) by nra.
      assert (ZC : forall c, In c (centered arr) -> c = vzero).
      { intros c I. rewrite (svd_fact _ _ _ _ Hs) in I. apply in_map_iff in I. destruct I as (ui & <- & _).
        assert (p_s f = vzero) as -> by (apply vec3_eq; cbn [vx vy vz vzero]; lra).
        destruct ui, (p_axes f) as [[] [] []]. apply vec3_eq; munf; ring. }
      assert (ZA : forall x, In x arr -> x = m).
      { intros x I. apply np_mean_spec in Hm. unfold centered in ZC. rewrite Hm in ZC.
        specialize (ZC (vsub x m) (in_map (fun p => vsub p m) _ _ I)). pose proof (f_equal vx ZC) as X. pose proof (f_equal vy ZC) as Y. pose proof (f_equal vz ZC) as W. cbn [vsub vzero vx vy vz] in X, Y, W. apply vec3_eq; lra. }
      intros x y I J. rewrite (ZA _ I), (ZA _ J). reflexivity.
    + intros ALL. exfalso. apply Z. rewrite AV in P, Q. apply in_map_iff in P, Q. destruct P as (p0 & <- & P), Q as (q0 & <- & Q).
      rewrite EA in P, Q. unfold centered in P, Q. destruct (np_mean arr); [|destruct P]. apply in_map_iff in P, Q.
      destruct P as (p1 & <- & P), Q as (q1 & <- & Q). rewrite (ALL _ _ P Q) in EP. lra.
  - intros h H. unfold figure_height in H. destruct (Req_EM_T (hi0 - lo0) 0) as [Z|Z]; [discriminate|]. injection H as <-.
    destruct (Rlt_dec _ 3) as [X|X]; [split; [lra|intros; lra]|]. split; [lra|]. intros _. field. auto.
Qed.

(** * C153 the angle in the title *)
Lemma section_value : forall hyp a, (a < 2)%nat -> 0 <= vz hyp ->
  let h := if Nat.eqb a 0 then vx hyp else vy hyp in
  section_angle hyp a = if Rlt_dec h 0 then None else Some (2 * degrees (atan2 (sqrt (vz hyp)) (sqrt h))).
Proof.
  intros hyp a A Z h. unfold section_angle, fsqrt.
  assert (QS : forall v0, v0 = ex \/ v0 = ey -> dot (vmul ez hyp) v0 = 0 /\ dot (vmul v0 hyp) ez = 0) by (intros v0 [->| ->]; split; vunf; ring).
  assert (Q2 : dot (vmul ez hyp) ez = vz hyp) by (vunf; ring).
  set (v0 := match a with O => ex | 1%nat => ey | _ => ez end).
  assert (V : v0 = ex \/ v0 = ey) by (unfold v0; destruct a as [|[|a]]; [auto|auto|lia]).
  assert (QV : dot (vmul v0 hyp) v0 = h) by (unfold v0, h; destruct a as [|[|a]]; [cbn [Nat.eqb]; vunf; ring|cbn [Nat.eqb]; vunf; ring|lia]).
  destruct (QS v0 V) as [Q0 Q1]. rewrite Q0, Q1, Q2, QV. destruct (Rlt_dec h 0); [reflexivity|]. destruct (Rlt_dec 0 0); [lra|].
  destruct (Rlt_dec (vz hyp) 0); [lra|]. cbn [obind]. f_equal. rewrite sqrt_0.
  pose proof (sqrt_pos h). pose proof (sqrt_pos (vz hyp)).
  replace (sqrt h * sqrt h + 0 * 0) with (sqrt h * sqrt h) by ring. replace (0 * 0 + sqrt (vz hyp) * sqrt (vz hyp)) with (sqrt (vz hyp) * sqrt (vz hyp)) by ring.
  rewrite !sqrt_square by auto. reflexivity.
Qed.
(** twice the angular error reported for that axis *)
Theorem C153_angle : forall hyp e0 e1, angular_errors hyp = Some (e0, e1) ->
  section_angle hyp 0 = Some (2 * degrees e0) /\ section_angle hyp 1 = Some (2 * degrees e1).
Proof.
  intros hyp e0 e1 E. unfold angular_errors, vsqrt, fsqrt in E.
  destruct (Rlt_dec (vx hyp) 0); [discriminate|]. destruct (Rlt_dec (vy hyp) 0); [discriminate|]. destruct (Rlt_dec (vz hyp) 0); [discriminate|].
  cbn [obind vx vy vz] in E. injection E as <- <-. rewrite !section_value by (lia || lra). cbn [Nat.eqb].
  destruct (Rlt_dec (vx hyp) 0); [lra|]. destruct (Rlt_dec (vy hyp) 0); [lra|]. auto.
Qed.
(** it is the opening of the band drawn in the section: a line through the centre stays
    inside exactly when its slope is at most half the angle *)
Theorem C153_opening : forall inv hyp a t th, numpy_inv inv -> 0 < vx hyp -> 0 < vy hyp -> 0 < vz hyp -> (a < 2)%nat ->
  section_angle hyp a = Some th -> 0 < th < 180 /\
  (- PI / 2 < t < PI / 2 -> ((forall x y, band inv hyp (if Nat.eqb a 0 then ex else ey) x y -> Rabs (x * tan t) < y) <-> Rabs t <= radians (th / 2))).
Proof.
  intros inv hyp a t th HI H0 H1 H2 A E.
  destruct (angular_errors hyp) as [[e0 e1]|] eqn:AE.
  2:{ unfold angular_errors, vsqrt, fsqrt in AE. destruct (Rlt_dec (vx hyp) 0); [lra|]. destruct (Rlt_dec (vy hyp) 0); [lra|]. destruct (Rlt_dec (vz hyp) 0); [lra|]. discriminate. }
  destruct (C153_angle _ _ _ AE) as [A0 A1].
  assert (K : exists e, th = 2 * degrees e /\ ((if Nat.eqb a 0 then ex else ey) = ex /\ e = e0 \/ (if Nat.eqb a 0 then ex else ey) = ey /\ e = e1)).
  { destruct a as [|[|a]]; [|  |lia]; rewrite E in *; [injection A0 as ->; exists e0|injection A1 as ->; exists e1]; cbn [Nat.eqb]; auto. }
  destruct K as (e & -> & C). destruct (C75_asymptotes inv hyp e0 e1 HI H0 H1 H2 AE _ _ C) as (_ & S & _).
  assert (BE : 0 < e < PI / 2).
  { unfold angular_errors, vsqrt, fsqrt in AE. destruct (Rlt_dec (vx hyp) 0); [lra|]. destruct (Rlt_dec (vy hyp) 0); [lra|]. destruct (Rlt_dec (vz hyp) 0); [lra|].
    cbn [obind vx vy vz] in AE. injection AE as <- <-. pose proof (sqrt_lt_R0 _ H0). pose proof (sqrt_lt_R0 _ H1). pose proof (sqrt_lt_R0 _ H2).
    assert (T : forall y x, 0 < y -> 0 < x -> 0 < atan2 y x < PI / 2).
    { intros y x Y X. rewrite atan2_pos by auto. pose proof (atan_bound (y / x)). split; [|lra]. rewrite <- atan_0. apply atan_increasing. now apply Rdiv_lt_0_compat. }
    destruct C as [[_ ->]|[_ ->]]; apply T; auto. }
  pose proof PI_RGT_0 as PP. split.
  - unfold degrees. split; [apply Rmult_lt_0_compat; [lra|]; apply Rdiv_lt_0_compat; lra|].
    apply (Rmult_lt_reg_r PI); [auto|]. replace (2 * (e * 180 / PI) * PI) with (360 * e) by (field; lra). lra.
  - intros T. rewrite (S t T). replace (radians (2 * degrees e / 2)) with e by (unfold radians, degrees; field; lra). reflexivity.
Qed.
(** for the error axes of a fit the angle is always a number *)
Theorem C153_fit : forall st svd arr f hyp a, lapack svd -> PCAOrientation svd arr None None = Ok f -> sampling_axes st f = Some hyp -> (a < 2)%nat ->
  exists th, section_angle hyp a = Some th /\ 0 <= th <= 180.
Proof.
  intros st svd arr f hyp a L F E A. unfold sampling_axes, statistical_axes in E.
  destruct (eigenvalues f); [|discriminate]. cbn [obind] in E. destruct (match k_method _ with MSampling => _ | MNoise => _ end); [|discriminate]. cbn [obind] in E.
  destruct (if k_chisq _ then _ else _); [|discriminate]. cbn [obind] in E. destruct (vsqrt v0); [|discriminate]. cbn [obind] in E.
  unfold apply_error_scaling in E. destruct (if k_all_axes _ then _ else _); [|discriminate]. cbn [obind] in E. apply (f_equal (fun o => match o with Some x => x | None => vzero end)) in E. subst hyp.
  match goal with |- context [vabs ?w] => set (w' := w) end.
  assert (P : 0 <= vx (vabs w') /\ 0 <= vy (vabs w') /\ 0 <= vz (vabs w')) by (unfold vabs; cbn [vx vy vz]; repeat split; apply Rabs_pos).
  rewrite section_value by tauto. set (h := if Nat.eqb a 0 then vx (vabs w') else vy (vabs w')).
  assert (HP : 0 <= h) by (unfold h; destruct (Nat.eqb a 0); tauto). destruct (Rlt_dec h 0); [lra|]. eexists. split; [reflexivity|].
  pose proof (sqrt_pos h) as S1. pose proof (sqrt_pos (vz (vabs w'))) as S2. set (y := sqrt (vz (vabs w'))) in *. set (x := sqrt h) in *.
  assert (B : 0 <= atan2 y x <= PI / 2).
  { pose proof PI_RGT_0. destruct (Req_dec x 0) as [X|X].
    - rewrite X. destruct (Req_dec y 0) as [Y|Y]; [rewrite Y, atan2_00; lra|]. unfold atan2.
      destruct (Rlt_dec 0 0); [lra|]. destruct (Rlt_dec 0 y); lra.
    - rewrite atan2_pos by lra. pose proof (atan_bound (y / x)). split; [|lra]. rewrite <- atan_0.
      assert (G0 : 0 <= y / x) by (apply Rmult_le_pos; [auto|left; apply Rinv_0_lt_compat; lra]).
      destruct G0 as [G|G]; [left; now apply atan_increasing|right; now rewrite <- G]. }
  pose proof PI_RGT_0 as PP. unfold degrees. set (k := atan2 y x) in *.
  split; [apply Rmult_le_pos; [lra|]; apply Rmult_le_pos; [lra|left; now apply Rinv_0_lt_compat]|].
  apply (Rmult_le_reg_r PI); [auto|]. replace (2 * (k * 180 / PI) * PI) with (360 * k) by (field; lra). lra.
Qed.

(** * C154 how far the bands reach *)
Lemma linspace_ends : forall lo hi m, (1 < m)%nat -> In lo (linspace lo hi m) /\ In hi (linspace lo hi m).
Proof.
  intros lo hi m M. unfold linspace. split; apply in_map_iff.
  - exists 0%nat. split; [cbn [INR]; ring|]. apply in_seq. lia.
  - exists (m - 1)%nat. split; [|apply in_seq; lia]. field. apply not_0_INR. lia.
Qed.
Lemma linspace_within : forall lo hi m x, lo <= hi -> In x (linspace lo hi m) -> lo <= x <= hi.
Proof.
  intros lo hi m x H I. unfold linspace in I. apply in_map_iff in I. destruct I as (k & <- & K). apply in_seq in K.
  destruct (Nat.eq_dec m 1) as [->|M].
  - replace k with 0%nat by lia. cbn [INR Nat.sub]. lra.
  - assert (P : 0 < INR (m - 1)) by (apply lt_0_INR; lia). assert (0 <= INR k) by apply pos_INR. assert (INR k <= INR (m - 1)) by (apply le_INR; lia).
    assert (0 <= INR k / INR (m - 1) <= 1).
    { split; [apply Rmult_le_pos; [auto|left; now apply Rinv_0_lt_compat]|]. apply (Rmult_le_reg_r (INR (m - 1))); [auto|]. replace (INR k / INR (m - 1) * INR (m - 1)) with (INR k) by (field; lra). lra. }
    replace (INR k * ((hi - lo) / INR (m - 1))) with (INR k / INR (m - 1) * (hi - lo)) by (field; lra). nra.
Qed.
Lemma sparse_incl : forall b A, incl (sparse_points b A) A.
Proof. intros [|] A; [apply (C151_thinned A)|cbn [sparse_points]; apply incl_refl]. Qed.
(** the band of the long section reaches past every point drawn in it *)
Theorem C154_long : forall svd arr w f hyp sparse s, lapack svd -> PCAOrientation svd arr (Some w) None = Ok f ->
  aligned_section hyp sparse (aligned_points f) 0 = Ok s ->
  length (se_band s) = 100%nat /\
  forall x z, In (x, z) (se_points s) -> fst (se_range s) <= x <= snd (se_range s) /\ exists a b, In a (se_band s) /\ In b (se_band s) /\ a <= x <= b.
Proof.
  intros svd arr w f hyp sp s L F H. unfold aligned_section in H. destruct (minmax vx (aligned_points f)) as [[lo hi]|e|] eqn:M; try discriminate.
  cbn [rbind] in H. injection H as <-. cbn [se_points se_band se_range fst snd].
  split; [unfold linspace; rewrite map_length; apply seq_length|]. intros x z I. apply in_map_iff in I. destruct I as (q & E & I). injection E as <- _.
  apply sparse_incl in I. destruct (minmax_spec _ _ _ _ M) as (_ & _ & B). specialize (B q I). split; [exact B|].
  assert (M' := M). rewrite (proj1 (minmax_dot _)) in M'. pose proof (straddle _ _ _ _ _ _ _ L F M') as ST.
  destruct (linspace_ends (lo * (12 / 10)) (hi * (12 / 10)) 100 ltac:(lia)) as [I1 I2]. exists (lo * (12 / 10)), (hi * (12 / 10)). repeat split; auto; lra.
Qed.

(** that of the short section is as long as that of the long one, and can end before a point *)
Definition cross_data : list vec3 :=
  [V3 2 0 0; V3 (-2) 0 0; V3 2 0 0; V3 (-2) 0 0; V3 2 0 0; V3 (-2) 0 0; V3 0 (5/2) 0; V3 0 (-5/2) 0; V3 0 0 1; V3 0 0 (-1)].
Definition cross_s : vec3 := V3 (sqrt 24) (sqrt (25/2)) (sqrt 2).
Definition cross_U : list vec3 := map (fun p => V3 (vx p / sqrt 24) (vy p / sqrt (25/2)) (vz p / sqrt 2)) cross_data.
Lemma cross_svd : is_svd cross_data cross_U cross_s mid.
Proof.
  assert (P0 : 0 < sqrt 24) by (apply sqrt_lt_R0; lra). assert (P1 : 0 < sqrt (25/2)) by (apply sqrt_lt_R0; lra). assert (P2 : 0 < sqrt 2) by (apply sqrt_lt_R0; lra).
  assert (S0 : sqrt 24 * sqrt 24 = 24) by (apply sqrt_def; lra). assert (S1 : sqrt (25/2) * sqrt (25/2) = 25/2) by (apply sqrt_def; lra). assert (S2 : sqrt 2 * sqrt 2 = 2) by (apply sqrt_def; lra).
  assert (Q : forall x y k, x / k * (y / k) = x * y * / (k * k) ) by (intros; unfold Rdiv; rewrite Rinv_mult; ring).
  constructor.
  - unfold cross_U. rewrite map_map. rewrite <- (map_id cross_data) at 1. apply map_ext. intros p. unfold cross_s. apply vec3_eq; munf; field; lra.
  - unfold cross_U. rewrite sumf_map. cbn [vx]. rewrite (sumf_ext _ _ (fun p => vx p * vx p * / 24)) by (intros; rewrite Q, S0; reflexivity). rewrite sumf_scal_r. unfold cross_data. cbn [sumf fold_right map vx vy vz]. field.
  - unfold cross_U. rewrite sumf_map. cbn [vy]. rewrite (sumf_ext _ _ (fun p => vy p * vy p * / (25/2))) by (intros; rewrite Q, S1; reflexivity). rewrite sumf_scal_r. unfold cross_data. cbn [sumf fold_right map vx vy vz]. field.
  - unfold cross_U. rewrite sumf_map. cbn [vz]. rewrite (sumf_ext _ _ (fun p => vz p * vz p * / 2)) by (intros; rewrite Q, S2; reflexivity). rewrite sumf_scal_r. unfold cross_data. cbn [sumf fold_right map vx vy vz]. field.
  - unfold cross_U, cross_data. cbn [sumf fold_right map vx vy vz]. unfold Rdiv. ring.
  - unfold cross_U, cross_data. cbn [sumf fold_right map vx vy vz]. unfold Rdiv. ring.
  - unfold cross_U, cross_data. cbn [sumf fold_right map vx vy vz]. unfold Rdiv. ring.
  - unfold orthonormal. munf. repeat split; ring.
  - cbn [cross_s vx vy]. apply sqrt_le_1; lra.
  - cbn [cross_s vz vy]. apply sqrt_le_1; lra.
  - cbn [cross_s vz]. lra.
Qed.
Theorem C154_short_refuted : exists svd arr f, lapack svd /\ PCAOrientation svd arr None None = Ok f /\
  forall hyp sparse, exists s, aligned_section hyp sparse (aligned_points f) 1 = Ok s /\
  exists x z, In (x, z) (se_points s) /\ forall a, In a (se_band s) -> a < x.
Proof.
  set (svd := svd_override cross_data (cross_U, cross_s, mid) svd_ref).
  assert (L : lapack svd) by (apply svd_override_ok; [exact lapack_ref|exact cross_svd]).
  assert (CC : centered cross_data = cross_data).
  { apply centered_id; [discriminate|]. unfold cross_data, vsum. apply vec3_eq; cbn [sumf fold_right map vx vy vz vzero]; lra. }
  destruct (fit_exists svd cross_data L) as [f F]. { simpl; lia. }
  assert (AX : p_axes f = mid).
  { assert (F' := F). unfold PCAOrientation, run_svd in F'. rewrite CC in F'.
    change (length cross_data <? 3)%nat with false in F'. rewrite has_zero_ones, vdiv_ones in F'. unfold svd, svd_override in F'.
    destruct (list_eq_dec vec3_eq_dec cross_data cross_data) as [_|h]; [|congruence]. cbn [rbind] in F'. apply (f_equal (fun r => match r with Ok g => p_axes g | _ => mid end)) in F'. cbn [p_axes] in F'. auto. }
  destruct (fit_inv _ _ _ L F) as (_ & u & m & _ & _ & _ & EA & _). rewrite CC in EA.
  assert (AV : aligned_points f = cross_data).
  { rewrite (aligned_value _ _ ones _ L F), AX, EA. rewrite <- (map_id cross_data) at 2. apply map_ext. intros p. apply vec3_eq; munf; ring. }
  exists svd, cross_data, f. split; [auto|]. split; [auto|]. intros hyp sp. rewrite AV. unfold aligned_section.
  destruct (minmax_ok vx cross_data) as (lo & hi & MX); [discriminate|]. destruct (minmax_ok vy cross_data) as (lo' & hi' & MY); [discriminate|].
  rewrite MX, MY. cbn [rbind]. eexists. split; [reflexivity|]. cbn [se_points se_band].
  exists (5/2), 0. split.
  - apply in_map_iff. exists (V3 0 (5/2) 0). split; [reflexivity|]. destruct sp; [|cbn [sparse_points]; unfold cross_data; cbn [In]; tauto].
    rewrite (proj1 (proj2 (C151_thinned cross_data))); [unfold cross_data; cbn [In]; tauto|]. rewrite ten_thousand. cbn [cross_data length]. lia.
  - intros a I. destruct (minmax_spec _ _ _ _ MX) as ((p & P & EP) & (q & Q & EQ) & _).
    assert (B : forall p, In p cross_data -> -2 <= vx p <= 2).
    { intros x J. unfold cross_data in J. cbn [In] in J. repeat (destruct J as [<-|J]; [cbn [vx]; lra|]). destruct J. }
    pose proof (B p P). pose proof (B q Q). assert (LH : lo <= hi). { destruct (minmax_spec _ _ _ _ MX) as (_ & _ & BB). specialize (BB p P). lra. }
    apply linspace_within in I; lra.
Qed.

(** Cases. *)
Example C150_case : exists f, PCAOrientation svd_ref (axis_data 3 2 1) None None = Ok f /\ length (aligned_points f) = length (p_arr f) /\ aligned_points f <> [].
Proof.
  destruct (axis_fit 3 2 1) as [f F]. exists f. split; [auto|]. destruct (C150_heights svd_ref (axis_data 3 2 1) ones f lapack_ref F) as [L _]. split; [auto|].
  destruct (fit_inv _ _ _ lapack_ref F) as (_ & u & m & _ & _ & _ & EA & _). rewrite axis_centered in EA. rewrite (aligned_value _ _ ones _ lapack_ref F), EA. discriminate.
Qed.
Example C151_case : (length (sparse_points true (repeat ex (S 10000))) <= 10000)%nat /\ sparse_points true [ex; ey] = [ex; ey].
Proof. split; [apply (proj1 (C151_thinned _))|apply (proj1 (proj2 (C151_thinned [ex; ey])))]. rewrite ten_thousand. cbn [length]. lia. Qed.
Example C152_case : figure_height 4 2 1 = Some 12 /\ figure_height 100 1 1 = Some 3 /\ figure_height 0 1 1 = None.
Proof.
  unfold figure_height. destruct (Req_EM_T 4 0); [lra|]. destruct (Req_EM_T 100 0); [lra|]. destruct (Req_EM_T 0 0); [|lra].
  destruct (Rlt_dec (8 * ((1 * 2 + 2) / 4 * (15 / 10))) 3); [lra|]. destruct (Rlt_dec (8 * ((1 * 2 + 1) / 100 * (15 / 10))) 3); [|lra]. repeat split. f_equal. field.
Qed.
Example C153_case : section_angle (V3 3 1 1) 1 = Some 90.
Proof.
  rewrite section_value; [|lia|cbn; lra]. cbn [Nat.eqb vy vz]. destruct (Rlt_dec 1 0); [lra|]. f_equal. rewrite sqrt_1.
  unfold atan2. destruct (Rlt_dec 0 1); [|lra]. replace (1 / 1) with 1 by field. rewrite atan_1. unfold degrees. field. apply PI_neq0.
Qed.
Example C154_case : exists f s, PCAOrientation svd_ref (axis_data 3 2 1) None None = Ok f /\ aligned_section (V3 3 2 1) true (aligned_points f) 0 = Ok s /\ length (se_band s) = 100%nat.
Proof.
  destruct (axis_fit 3 2 1) as [f F]. exists f. destruct C150_case as (f' & F' & _ & NE). rewrite F in F'. injection F' as <-.
  destruct (minmax_ok vx (aligned_points f) NE) as (lo & hi & M).
  unfold aligned_section. rewrite M. cbn [rbind]. eexists. split; [auto|]. split; [reflexivity|]. cbn [se_band]. unfold linspace. now rewrite map_length, seq_length.
Qed.

Print Assumptions C150_heights.
Print Assumptions C150_upside_down_refuted.
Print Assumptions C151_thinned.
Print Assumptions C151_regular.
Print Assumptions C152_residual.
Print Assumptions C152_label_refuted.
Print Assumptions C152_height.
Print Assumptions C153_angle.
Print Assumptions C153_opening.
Print Assumptions C153_fit.
Print Assumptions C154_long.
Print Assumptions C154_short_refuted.
