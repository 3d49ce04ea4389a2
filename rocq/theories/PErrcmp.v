(** Property C228: the bands of the error comparison. *)
From Coq Require Import Reals Lra Lia List Arith Psatz.
From Verif Require Import RVec Trig LNum SpecPlane SpecConics MConics LConics LSlice MHyper PHyper MPca LSvd LPca LFit LAngles LFit2 LExamples
  MAxes LAxes PAxes PPca MFigures MBand MErrcmp.
Import ListNotations.
Notation length := List.length.
Open Scope R_scope.

(** half the width of the band with axes h at the distance x along the second axis *)
Definition half_width (h : vec3) (x : R) : R := sqrt (vz h * (1 + x * x / vy h)).
Definition band_of (h : vec3) (xs : list R) : bands :=
  (map (fun x => (x, 0)) xs, map (fun x => (x, - half_width h x)) xs, rev (map (fun x => (x, half_width h x)) xs)).

Lemma errors_band : forall inv h xs, numpy_inv inv -> 0 < vx h -> 0 < vy h -> 0 < vz h ->
  hyperbolic_errors inv [vx h; vy h; vz h] xs None (Some [[0; 1; 0]; [0; 0; 1]]) None false = Ok (band_of h xs).
Proof.
  intros inv h xs HI H0 H1 H2.
  assert (Q0 : recip h (in_frame None ey) = / vy h) by (unfold recip, in_frame, ey; vunf; field; repeat split; lra).
  assert (Q1 : recip h (in_frame None ez) = / vz h) by (unfold recip, in_frame, ez; vunf; field; repeat split; lra).
  assert (I0 := Rinv_0_lt_compat _ H1). assert (I1 := Rinv_0_lt_compat _ H2).
  assert (SX : 0 < sqrt (vy h)) by now apply sqrt_lt_R0. assert (SZ : 0 < sqrt (vz h)) by now apply sqrt_lt_R0.
  unfold hyperbolic_errors.
  assert (VA := view_axes_ok inv h None ey ez HI ltac:(lra) ltac:(lra) ltac:(lra)). cbv zeta in VA. rewrite Q0, Q1 in VA.
  unfold list_of in VA. cbn [ey ez vx vy vz] in VA. fold (list_of h) in VA. unfold list_of in VA.
  rewrite VA by lra. cbn [rbind].
  assert (AD : apparent_dip_correction (Some [[0; 1; 0]; [0; 0; 1]]) = Ok ((1, 0), (0, 1))).
  { unfold apparent_dip_correction. change [0; 1; 0] with ([0; 1] ++ [0]).
    rewrite cos_angle_share. unfold horizontal_share. simpl length. rewrite sumn2. cbn [nth].
    replace (0 * 0 + 1 * 1) with 1 by ring. destruct (Req_EM_T 1 0); [lra|]. replace (1 / (1 + 0 * 0)) with 1 by field. rewrite sqrt_1.
    destruct (Rlt_dec (/ 1000000000000) (1 - 1 * 1)); [lra|reflexivity]. }
  rewrite AD. cbn [rbind]. rewrite !Rabs_pos_eq by lra. rewrite !Rinv_inv by lra.
  set (A := (sqrt (vy h), sqrt (vz h))).
  assert (B : forall x, branch A x = half_width h x).
  { intros x. pose proof (branch_sq A x SX SZ) as SQ. destruct (branch_spec A x SX SZ) as [BP _].
    unfold half_width. rewrite <- (sqrt_square (branch A x)) by lra. f_equal. rewrite SQ. unfold A; cbn [fst snd].
    replace (sqrt (vz h) / sqrt (vy h) * x * (sqrt (vz h) / sqrt (vy h) * x)) with (sqrt (vz h) * sqrt (vz h) * (x * x) / (sqrt (vy h) * sqrt (vy h))) by (field; lra).
    rewrite !sqrt_sqrt by lra. field. lra. }
  unfold band_of. f_equal. unfold vmul2. cbn [fst snd]. f_equal; [f_equal|f_equal]; apply map_ext; intros x; rewrite ?B; f_equal; ring.
Qed.

(** the statistic of a fit of n points and the two relative errors *)
Definition statistic (st : stats) (n : nat) : option R := f_ppf st (95 / 100) 2 (INR n - 2).
Definition noise_share (z : R) (n : nat) : R := z / sqrt (INR n - 2).
Definition sampling_share (z : R) (n : nat) : R := z * sqrt (2 / (INR n - 1)).

Lemma axes_values : forall svd arr f st z, lapack svd -> PCAOrientation svd arr None None = Ok f ->
  statistic st (length arr) = Some z -> 0 < z ->
  exists e, eigenvalues f = Some e /\ sorted3 e /\ 3 <= INR (length arr) /\
    e = V3 (vx (p_s f) * vx (p_s f) / (INR (length arr) - 1)) (vy (p_s f) * vy (p_s f) / (INR (length arr) - 1)) (vz (p_s f) * vz (p_s f) / (INR (length arr) - 1)) /\
    sampling_axes st f = Some (axes_value (mkKw MSampling (95/100) 2 false true) z e (INR (length arr))) /\
    noise_axes st f = Some (axes_value default_kw z e (INR (length arr))).
Proof.
  intros svd arr f st z L F S Z. destruct (fit_has_facts _ _ _ L F) as (e & FF). pose proof FF as [E SO N N3].
  exists e. split; [exact E|]. split; [exact SO|]. split; [exact N3|]. split.
  - rewrite (eig_some _ _ _ L F) in E. injection E as <-.
    destruct (fit_inv _ _ _ L F) as (Hn & u & m & _ & _ & _ & _ & _ & _ & En & _). rewrite ?En.
    reflexivity.
  - split; unfold sampling_axes, noise_axes; apply stat_axes_value; auto; lra.
Qed.

Lemma nonzero_axes : forall svd arr f st z hs hn, lapack svd -> PCAOrientation svd arr None None = Ok f ->
  statistic st (length arr) = Some z -> 0 < z -> 0 < vz (p_s f) ->
  sampling_axes st f = Some hs -> noise_axes st f = Some hn -> vx hs * vy hs <> 0 -> vx hn * vy hn <> 0 ->
  (0 < vx (p_s f) /\ 0 < vy (p_s f)) /\ (0 < vx hs /\ 0 < vy hs /\ 0 < vz hs) /\ (0 < vx hn /\ 0 < vy hn /\ 0 < vz hn).
Proof.
  intros svd arr f st z hs hn L F S Z P HS HN NS NN. destruct (axes_values _ _ _ _ _ L F S Z) as (e & E & SO & N3 & EV & ES & EN).
  rewrite ES in HS. injection HS as <-. rewrite EN in HN. injection HN as <-.
  destruct (fit_inv _ _ _ L F) as (Hn & u & m & Hs & _).
  pose proof (svd_s01 _ _ _ _ Hs) as S01. pose proof (svd_s12 _ _ _ _ Hs) as S12. split; [lra|].
  assert (E2 : 0 < vz e). { rewrite EV. cbn [vz]. apply Rdiv_lt_0_compat; [apply Rmult_lt_0_compat; lra|lra]. }
  pose proof SO as (O2 & O1 & O0).
  assert (G : forall kw, vx (axes_value kw z e (INR (length arr))) * vy (axes_value kw z e (INR (length arr))) <> 0 -> k_all_axes kw = true ->
    0 < vx (axes_value kw z e (INR (length arr))) /\ 0 < vy (axes_value kw z e (INR (length arr))) /\ 0 < vz (axes_value kw z e (INR (length arr)))).
  { intros kw NZ KA. unfold axes_value in *. cbn [vx vy vz] in *. unfold z_nominal. rewrite KA.
    pose proof (err_term_nonneg (k_method kw) z (INR (length arr)) (vz e) (vz e) ltac:(lra) N3 ltac:(lra) ltac:(lra)).
    pose proof (Rabs_pos (vx e - err_term (k_method kw) z (INR (length arr)) (vz e) (vx e))) as A0.
    pose proof (Rabs_pos (vy e - err_term (k_method kw) z (INR (length arr)) (vz e) (vy e))) as A1.
    assert (G : forall a b, 0 <= a -> 0 <= b -> a * b <> 0 -> 0 < a /\ 0 < b).
    { intros a b PA PB AB. assert (a <> 0) by (intros ->; apply AB; ring). assert (b <> 0) by (intros ->; apply AB; ring). lra. }
    destruct (G _ _ A0 A1 NZ) as [G0 G1]. repeat split; [exact G0|exact G1|lra]. }
  split; apply G; auto.
Qed.

(** What is drawn: the window, the positions and three bands, one about the singular values. *)
Theorem C228_drawn : forall inv st svd noise arr f z hs hn width height, numpy_inv inv -> lapack svd ->
  PCAOrientation svd arr None None = Ok f -> statistic st (length arr) = Some z -> 0 < z -> 0 < vz (p_s f) ->
  sampling_axes st f = Some hs -> noise_axes st f = Some hn -> vx hs * vy hs <> 0 -> vx hn * vy hn <> 0 ->
  exists c, error_comparison inv st svd noise f width height false = Ok c /\
    match width with Some w => c_half_width c = w / 2 | None => exists p, nth_error (rotated f) 0 = Some p /\
      c_half_width c = 5 / 4 * Rmax (Rmax (Rabs (vx p)) (Rabs (vy p))) (Rabs (vz p)) end /\
    c_half_height c = match height with Some h => h / 2 | None => c_half_width c / 25 end /\
    length (c_xvals c) = 401%nat /\ (forall k, (k <= 400)%nat -> nth_error (c_xvals c) k = Some (c_half_width c * (INR k / 200 - 1))) /\
    c_bands c = map (fun h => band_of h (c_xvals c)) [p_s f; hs; hn].
Proof.
  intros inv st svd noise arr f z hs hn width height HI L F S Z P HS HN NS NN.
  destruct (nonzero_axes _ _ _ _ _ _ _ L F S Z P HS HN NS NN) as ((A0 & A1) & (B0 & B1 & B2) & D0 & D1 & D2).
  assert (W : exists w, (match width with Some w => Ok (w / 2) | None => comparison_half_width (rotated f) end) = Ok w /\
     match width with Some v => w = v / 2 | None => exists p, nth_error (rotated f) 0 = Some p /\
      w = 5 / 4 * Rmax (Rmax (Rabs (vx p)) (Rabs (vy p))) (Rabs (vz p)) end).
  { destruct width as [v|]; [exists (v / 2); auto|].
    destruct (fit_inv _ _ _ L F) as (Hn & u & m & _ & _ & _ & Ea & _).
    assert (LR : length (rotated f) = length arr) by (unfold rotated; rewrite map_length, Ea; apply centered_length).
    destruct (rotated f) as [|p t]; [simpl in LR; lia|]. eexists. split; [reflexivity|]. exists p. split; [reflexivity|]. field. }
  destruct W as (w & EW & HW).
  unfold error_comparison. rewrite EW. cbn [rbind]. rewrite HS, HN.
  rewrite !errors_band by assumption. cbn [rbind].
  eexists. split; [reflexivity|]. cbn [c_half_width c_half_height c_xvals c_bands]. split; [exact HW|].
  split; [destruct height; [reflexivity|field]|].
  unfold linspace. rewrite map_length, seq_length. split; [reflexivity|]. split; [|reflexivity].
  intros k K. rewrite nth_error_map, (nth_error_nth' _ 0%nat) by (rewrite seq_length; lia). rewrite seq_nth by lia. cbn [option_map]. f_equal.
  rewrite Nat.add_0_l. replace (INR (401 - 1)) with 400 by (simpl; ring). field.
Qed.

(** A fit to coplanar points cannot be compared. *)
Theorem C228_exact : forall inv st svd noise arr f width height b, numpy_inv inv -> lapack svd ->
  PCAOrientation svd arr None None = Ok f -> vz (p_s f) = 0 ->
  error_comparison inv st svd noise f width height b = Raise LinAlgError.
Proof.
  intros inv st svd noise arr f width height b HI L F P.
  destruct (fit_inv _ _ _ L F) as (Hn & u & m & _ & _ & _ & Ea & _).
  assert (LR : length (rotated f) = length arr) by (unfold rotated; rewrite map_length, Ea; apply centered_length).
  unfold error_comparison.
  assert (W : exists w, (match width with Some w => Ok (w / 2) | None => comparison_half_width (rotated f) end) = Ok w).
  { destruct width; [eauto|]. destruct (rotated f); [simpl in LR; lia|eexists; reflexivity]. }
  destruct W as (w & ->). cbn [rbind]. rewrite C105_zero_axis; [reflexivity|exact HI|]. rewrite P. simpl. auto.
Qed.

Lemma first_raises : forall {A} (l : list (res A)) e r t, l = r :: t -> r = Raise e -> all_or_raise l = Raise e.
Proof. intros A l e r t -> ->. reflexivity. Qed.

(** With the bootstrap nothing is returned. *)
Theorem C228_bootstrap : forall inv st svd noise arr f width height c, lapack svd ->
  PCAOrientation svd arr None None = Ok f -> (forall i, length (noise i) = length arr) ->
  error_comparison inv st svd noise f width height false = Ok c ->
  error_comparison inv st svd noise f width height true = Raise NameError.
Proof.
  intros inv st svd noise arr f width height c L F N E.
  destruct (fit_inv _ _ _ L F) as (Hn & u & m & _ & _ & _ & Ea & _).
  assert (LR : length (rotated f) = length arr) by (unfold rotated; rewrite map_length, Ea; apply centered_length).
  assert (B : bootstrap_ci svd noise (rotated f) = Raise NameError).
  { unfold bootstrap_ci. destruct (rotated f) as [|p t] eqn:ER; [simpl in LR; lia|]. rewrite <- ER in *. 
    destruct (np_var (map vz (rotated f))) as [v|] eqn:EV; [|rewrite ER in EV; discriminate].
    unfold bootstrap_noise. change (seq 0 (100 * 100)) with (0%nat :: seq 1 (100 * 100 - 1)). cbn [map].
    eapply first_raises; [reflexivity|]. unfold bootstrap_func. 
    match goal with |- context[centered ?l] => set (q := l) end.
    assert (LQ : length (centered q) = length arr).
    { rewrite centered_length. unfold q. rewrite map_length, combine_length, LR, N. lia. }
    destruct (fit_exists svd (centered q) L) as [g ->]; [lia|]. reflexivity. }
  unfold error_comparison in *. destruct (match width with Some w => Ok (w / 2) | None => _ end) as [w| |]; try discriminate. cbn [rbind] in *.
  destruct (hyperbolic_errors inv _ _ _ _ _ _) as [b0| |]; try discriminate. cbn [rbind] in *.
  destruct (match sampling_axes st f with Some _ => _ | None => _ end) as [b1| |]; try discriminate. cbn [rbind] in *.
  destruct (match noise_axes st f with Some _ => _ | None => _ end) as [b2| |]; try discriminate. cbn [rbind] in *.
  rewrite B. reflexivity.
Qed.

Lemma lt_sqrt_iff : forall a b, 0 <= a -> 0 <= b -> (sqrt a < sqrt b <-> a < b).
Proof. intros a b A B. split; intros H; [now apply sqrt_lt_0_alt|now apply sqrt_lt_1]. Qed.
Lemma le_sqrt_iff : forall a b, 0 <= a -> 0 <= b -> (sqrt a <= sqrt b <-> a <= b).
Proof. intros a b A B. split; intros H; [now apply sqrt_le_0|now apply sqrt_le_1]. Qed.
Lemma width_lt : forall h g x, 0 < vy h -> 0 < vz h -> 0 < vy g -> 0 < vz g ->
  (half_width h x < half_width g x <-> vz h + vz h / vy h * (x * x) < vz g + vz g / vy g * (x * x)) /\
  (half_width h x <= half_width g x <-> vz h + vz h / vy h * (x * x) <= vz g + vz g / vy g * (x * x)).
Proof.
  intros h g x HY HZ GY GZ. unfold half_width.
  replace (vz h * (1 + x * x / vy h)) with (vz h + vz h / vy h * (x * x)) by (field; lra).
  replace (vz g * (1 + x * x / vy g)) with (vz g + vz g / vy g * (x * x)) by (field; lra).
  assert (P : forall k, 0 < vy k -> 0 < vz k -> 0 <= vz k + vz k / vy k * (x * x)).
  { intros k KY KZ. pose proof (Rdiv_lt_0_compat _ _ KZ KY). assert (0 <= x * x) by nra.
    assert (0 <= vz k / vy k * (x * x)) by (apply Rmult_le_pos; lra). lra. }
  split; [apply lt_sqrt_iff|apply le_sqrt_iff]; auto.
Qed.

(** two half widths, p + q x^2 under the root *)
Lemma bands_order : forall h g, 0 < vy h -> 0 < vz h -> 0 < vy g -> 0 < vz g -> vz h < vz g ->
  ((forall x, half_width h x <= half_width g x) <-> vz h / vy h <= vz g / vy g) /\
  (vz g / vy g < vz h / vy h -> exists X, 0 < X /\ forall x, half_width h x < half_width g x <-> Rabs x < X).
Proof.
  intros h g HY HZ GY GZ L.
  assert (C : vz g / vy g < vz h / vy h -> exists X, 0 < X /\ forall x, half_width h x < half_width g x <-> Rabs x < X).
  { intros Q. set (t := (vz g - vz h) / (vz h / vy h - vz g / vy g)).
    assert (T : 0 < t) by (apply Rdiv_lt_0_compat; lra). exists (sqrt t). split; [now apply sqrt_lt_R0|].
    intros x. rewrite (proj1 (width_lt h g x HY HZ GY GZ)).
    rewrite <- (sqrt_Rsqr_abs x), lt_sqrt_iff by (try apply Rle_0_sqr; lra). unfold Rsqr.
    assert (TE : t * (vz h / vy h - vz g / vy g) = vz g - vz h) by (unfold t; field; repeat split; try lra; intros X; assert (vz h / vy h - vz g / vy g = 0) by (replace (vz h / vy h - vz g / vy g) with ((vz h * vy g - vz g * vy h) / (vy h * vy g)) by (field; lra); rewrite X; field; lra); lra).
    set (d := vz h / vy h - vz g / vy g) in *. assert (D : 0 < d) by (unfold d; lra).
    replace (vz h / vy h) with (d + vz g / vy g) by (unfold d; ring). split; intros H.
    - apply Rmult_lt_reg_r with d; [exact D|]. rewrite TE. lra.
    - apply Rmult_lt_compat_r with (r := d) in H; [|exact D]. rewrite TE in H. lra. }
  split; [|exact C]. split; intros H.
  - destruct (Rle_lt_dec (vz h / vy h) (vz g / vy g)) as [|G]; [assumption|exfalso].
    destruct (C G) as (X & XP & HX).
    assert (N1 := HX X). assert (N2 := HX (X + 1)). specialize (H (X + 1)).
    assert (E : half_width h (X + 1) = half_width g (X + 1)).
    { apply Rle_antisym; [exact H|]. apply Rnot_lt_le. intros Y. apply N2 in Y. rewrite Rabs_pos_eq in Y by lra. lra. }
    pose proof (proj2 (width_lt h g (X + 1) HY HZ GY GZ)) as W1. 
    assert (W2 := proj2 (width_lt g h (X + 1) GY GZ HY HZ)). 
    assert (E1 := proj1 W1 (Req_le _ _ E)). assert (E2 := proj1 W2 (Req_le _ _ (eq_sym E))).
    assert (NX : ~ half_width h X < half_width g X) by (intros Y; apply N1 in Y; rewrite Rabs_pos_eq in Y by lra; lra).
    rewrite (proj1 (width_lt h g X HY HZ GY GZ)) in NX. apply Rnot_lt_le in NX.
    assert (X * X < (X + 1) * (X + 1)) by nra.
    pose proof (Rmult_lt_compat_l (vz h / vy h - vz g / vy g) _ _ ltac:(lra) H0). lra.
  - intros x. apply (proj2 (width_lt h g x HY HZ GY GZ)). assert (0 <= x * x) by nra.
    pose proof (Rmult_le_compat_r (x * x) _ _ H0 H). lra.
Qed.

(** the axes of the two statistical bands seen along the second axis *)
Lemma shares : forall svd arr f st z hs hn e, lapack svd -> PCAOrientation svd arr None None = Ok f ->
  statistic st (length arr) = Some z -> 0 < z -> 0 < vz (p_s f) ->
  sampling_axes st f = Some hs -> noise_axes st f = Some hn -> eigenvalues f = Some e ->
  let a := noise_share z (length arr) in let b := sampling_share z (length arr) in
  let q := sqrt (vz e / vy e) in
  0 < vz e /\ 0 < vy e /\ 0 < a /\ 0 < b /\ b < 2 * a /\ 0 < q /\
  vy hs = Rabs (vy e * (1 - b)) /\ vz hs = vz e * (1 + b) /\
  vy hn = Rabs (vy e * (1 - 2 * a * q)) /\ vz hn = vz e * (1 + 2 * a) /\
  vx hs = Rabs (vx e * (1 - b)) /\ vx hn = Rabs (vx e * (1 - 2 * a * sqrt (vz e / vx e))).
Proof.
  intros svd arr f st z hs hn e L F S Z P HS HN EE a b q. destruct (axes_values _ _ _ _ _ L F S Z) as (e' & E & SO & N3 & EV & ES & EN).
  rewrite EE in E. injection E as <-. rewrite ES in HS. injection HS as <-. rewrite EN in HN. injection HN as <-.
  assert (E2 : 0 < vz e). { rewrite EV. cbn [vz]. apply Rdiv_lt_0_compat; [apply Rmult_lt_0_compat; lra|lra]. }
  destruct SO as (O2 & O1 & O0). clear EV ES EN. set (n := INR (length arr)) in *.
  assert (SN : 0 < sqrt (n - 2)) by (apply sqrt_lt_R0; lra).
  assert (Q : 0 < q) by (apply sqrt_lt_R0, Rdiv_lt_0_compat; lra).
  assert (A : 0 < a) by (unfold a, noise_share; fold n; apply Rdiv_lt_0_compat; lra).
  assert (K : 0 < 2 / (n - 1)) by (apply Rdiv_lt_0_compat; lra).
  assert (B : 0 < b) by (unfold b, sampling_share; fold n; apply Rmult_lt_0_compat; [lra|now apply sqrt_lt_R0]).
  assert (NT : forall x, 0 < x -> noise_term z n (vz e) x = 2 * a * sqrt (x * vz e)).
  { intros x X. unfold noise_term, a, noise_share. fold n. replace (x * (vz e / (n - 2))) with (x * vz e / (n - 2)) by (field; lra).
    rewrite sqrt_div by (try lra; apply Rmult_le_pos; lra). field. lra. }
  split; [lra|]. split; [lra|]. split; [exact A|]. split; [exact B|]. split.
  { unfold a, b, sampling_share, noise_share. fold n.
    replace (2 * (z / sqrt (n - 2))) with (z * (2 / sqrt (n - 2))) by (field; lra). apply Rmult_lt_compat_l; [exact Z|].
    apply Rsqr_incrst_0; [|apply sqrt_pos|left; apply Rdiv_lt_0_compat; lra].
    unfold Rsqr. rewrite sqrt_sqrt by lra. replace (2 / sqrt (n - 2) * (2 / sqrt (n - 2))) with (4 / (sqrt (n - 2) * sqrt (n - 2))) by (field; lra).
    rewrite sqrt_sqrt by lra. apply Rmult_lt_reg_r with ((n - 1) * (n - 2)); [apply Rmult_lt_0_compat; lra|].
    replace (2 / (n - 1) * ((n - 1) * (n - 2))) with (2 * (n - 2)) by (field; lra).
    replace (4 / (n - 2) * ((n - 1) * (n - 2))) with (4 * (n - 1)) by (field; lra). lra. }
  split; [exact Q|]. unfold axes_value, default_kw, z_nominal. cbn [k_method k_all_axes vx vy vz err_term].
  rewrite !NT by lra. unfold sampling_term, b, sampling_share. fold n.
  assert (SQ : forall x, 0 < x -> sqrt (x * vz e) = x * sqrt (vz e / x)).
  { intros x X. replace (x * vz e) with (x * x * (vz e / x)) by (field; lra).
    rewrite sqrt_mult by (try (apply Rmult_le_pos; lra); left; apply Rdiv_lt_0_compat; lra). rewrite sqrt_square by lra. ring. }
  split; [f_equal; ring|]. split; [ring|]. split; [f_equal; rewrite SQ by lra; fold q; ring|].
  split; [rewrite sqrt_square by lra; ring|]. split; [f_equal; ring|]. f_equal. rewrite SQ by lra. ring.
Qed.

(** At the centre the noise band is the wider; it contains the sampling band exactly if the
    points are not too flat, and otherwise the two cross at one distance. *)
Theorem C228_crossing : forall svd arr f st z hs hn e, lapack svd -> PCAOrientation svd arr None None = Ok f ->
  statistic st (length arr) = Some z -> 0 < z -> 0 < vz (p_s f) ->
  sampling_axes st f = Some hs -> noise_axes st f = Some hn -> eigenvalues f = Some e ->
  let a := noise_share z (length arr) in let b := sampling_share z (length arr) in
  let q := sqrt (vz e / vy e) in
  b < 1 -> 2 * a * q < 1 ->
  half_width hs 0 < half_width hn 0 /\
  ((forall x, half_width hs x <= half_width hn x) <-> b - a + a * b <= q * (a * (1 + b))) /\
  (q * (a * (1 + b)) < b - a + a * b ->
     exists X, 0 < X /\ forall x, half_width hs x < half_width hn x <-> Rabs x < X).
Proof.
  intros svd arr f st z hs hn e L F S Z P HS HN EE a b q B1 A1.
  destruct (shares _ _ _ _ _ _ _ _ L F S Z P HS HN EE) as (E2 & E1 & A & B & AB & Q & YS & ZS & YN & ZN & XS & XN).
  fold a b q in A, B, AB, Q, YS, ZS, YN, ZN, XS, XN.
  assert (PS : 0 < vy e * (1 - b)) by (apply Rmult_lt_0_compat; lra).
  assert (PN : 0 < vy e * (1 - 2 * a * q)) by (apply Rmult_lt_0_compat; lra).
  rewrite Rabs_pos_eq in YS, YN by lra.
  assert (VS : 0 < vz hs) by (rewrite ZS; apply Rmult_lt_0_compat; lra).
  assert (VL : vz hs < vz hn) by (rewrite ZS, ZN; apply Rmult_lt_compat_l; lra).
  destruct (bands_order hs hn ltac:(lra) ltac:(lra) ltac:(lra) ltac:(lra) VL) as [I1 I2].
  assert (R : vz hs / vy hs <= vz hn / vy hn <-> b - a + a * b <= q * (a * (1 + b))).
  { rewrite YS, ZS, YN, ZN. set (d := vz e / vy e). assert (D : 0 < d) by (apply Rdiv_lt_0_compat; lra).
    replace (vz e * (1 + b) / (vy e * (1 - b))) with (d * ((1 + b) / (1 - b))) by (unfold d; field; lra).
    replace (vz e * (1 + 2 * a) / (vy e * (1 - 2 * a * q))) with (d * ((1 + 2 * a) / (1 - 2 * a * q))) by (unfold d; field; lra).
    assert (M : (1 + b) / (1 - b) <= (1 + 2 * a) / (1 - 2 * a * q) <-> (1 + b) * (1 - 2 * a * q) <= (1 + 2 * a) * (1 - b)).
    { split; intros H.
      - apply Rmult_le_compat_r with (r := (1 - b) * (1 - 2 * a * q)) in H; [|left; apply Rmult_lt_0_compat; lra].
        replace ((1 + b) / (1 - b) * ((1 - b) * (1 - 2 * a * q))) with ((1 + b) * (1 - 2 * a * q)) in H by (field; lra).
        replace ((1 + 2 * a) / (1 - 2 * a * q) * ((1 - b) * (1 - 2 * a * q))) with ((1 + 2 * a) * (1 - b)) in H by (field; lra). exact H.
      - apply Rmult_le_reg_r with (r := (1 - b) * (1 - 2 * a * q)); [apply Rmult_lt_0_compat; lra|].
        replace ((1 + b) / (1 - b) * ((1 - b) * (1 - 2 * a * q))) with ((1 + b) * (1 - 2 * a * q)) by (field; lra).
        replace ((1 + 2 * a) / (1 - 2 * a * q) * ((1 - b) * (1 - 2 * a * q))) with ((1 + 2 * a) * (1 - b)) by (field; lra). exact H. }
    split; intros H.
    - apply Rmult_le_reg_l in H; [|exact D]. apply M in H. lra.
    - apply Rmult_le_compat_l; [lra|]. apply M. lra. }
  split.
  { apply (proj1 (width_lt hs hn 0 ltac:(lra) ltac:(lra) ltac:(lra) ltac:(lra))). lra. }
  split; [now rewrite I1|]. intros H. apply I2. apply Rnot_le_lt. rewrite R. lra.
Qed.

Lemma half_width_scaled : forall k h x, 0 < k -> 0 < vy h -> 0 < vz h -> half_width (vscale (k * k) h) (k * x) = k * half_width h x.
Proof.
  intros k h x K Y Z0. unfold half_width. cbn [vscale vy vz].
  replace (k * k * vz h * (1 + k * x * (k * x) / (k * k * vy h))) with (k * k * (vz h * (1 + x * x / vy h))) by (field; lra).
  rewrite sqrt_mult; [|nra|].
  - now rewrite sqrt_square by lra.
  - apply Rmult_le_pos; [lra|]. assert (0 <= x * x / vy h) by (apply div_nonneg; nra). lra.
Qed.

(** The statistical bands grow with the data; the band called variance does not, and the
    unit of length decides whether it is narrower than the noise band at the centre. *)
Theorem C228_units : forall svd1 svd2 arr f1 f2 k st z hs hn, lapack svd1 -> lapack svd2 -> 0 < k ->
  PCAOrientation svd1 arr None None = Ok f1 -> PCAOrientation svd2 (map (vscale k) arr) None None = Ok f2 ->
  statistic st (length arr) = Some z -> 0 < z -> 0 < vz (p_s f1) ->
  sampling_axes st f1 = Some hs -> noise_axes st f1 = Some hn -> vx hs * vy hs <> 0 -> vx hn * vy hn <> 0 ->
  exists hs2 hn2, sampling_axes st f2 = Some hs2 /\ noise_axes st f2 = Some hn2 /\
    (forall x, half_width hs2 (k * x) = k * half_width hs x) /\
    (forall x, half_width hn2 (k * x) = k * half_width hn x) /\
    half_width (p_s f2) 0 = sqrt k * half_width (p_s f1) 0 /\
    (half_width (p_s f2) 0 < half_width hn2 0 <-> vz (p_s f1) / vz hn < k).
Proof.
  intros svd1 svd2 arr f1 f2 k st z hs hn L1 L2 K F1 F2 S Z P HS HN NS NN.
  destruct (nonzero_axes _ _ _ _ _ _ _ L1 F1 S Z P HS HN NS NN) as ((A0 & A1) & (B0 & B1 & B2) & D0 & D1 & D2).
  destruct (C08_errors svd1 svd2 arr f1 f2 k st (mkKw MSampling (95/100) 2 false true) z L1 L2 K F1 F2 S ltac:(lra)) as (h & E1 & E2 & _).
  destruct (C08_errors svd1 svd2 arr f1 f2 k st default_kw z L1 L2 K F1 F2 S ltac:(lra)) as (g & G1 & G2 & _).
  fold (sampling_axes st f1) in E1. fold (sampling_axes st f2) in E2. fold (noise_axes st f1) in G1. fold (noise_axes st f2) in G2.
  rewrite E1 in HS. injection HS as ->. rewrite G1 in HN. injection HN as ->.
  destruct (C08_scale svd1 svd2 arr f1 f2 k L1 L2 K F1 F2) as (SV & _).
  exists (vscale (k * k) hs), (vscale (k * k) hn). split; [exact E2|]. split; [exact G2|].
  split; [intros x; now apply half_width_scaled|]. split; [intros x; now apply half_width_scaled|].
  rewrite SV. unfold half_width. cbn [vscale vy vz]. replace (0 * 0) with 0 by ring. unfold Rdiv. rewrite !Rmult_0_l, !Rplus_0_r, !Rmult_1_r.
  split; [now rewrite sqrt_mult by lra|]. rewrite lt_sqrt_iff.
  - fold (vz (p_s f1) / vz hn). split; intros H.
    + apply Rmult_lt_reg_r with (vz hn); [exact D2|]. replace (vz (p_s f1) / vz hn * vz hn) with (vz (p_s f1)) by (field; lra).
      apply Rmult_lt_reg_l with k; [exact K|]. lra.
    + apply Rmult_lt_compat_r with (r := vz hn) in H; [|exact D2]. replace (vz (p_s f1) / vz hn * vz hn) with (vz (p_s f1)) in H by (field; lra).
      apply Rmult_lt_compat_l with (r := k) in H; [|exact K]. lra.
  - apply Rmult_le_pos; lra.
  - apply Rmult_le_pos; [nra|lra].
Qed.

(** six points and the statistic 1/2: the bands cross for the flat points only *)
Example C228_ex : forall c, c = 1 \/ c = 1 / 4 -> exists f e hs hn,
  PCAOrientation svd_ref (axis_data 3 2 c) None None = Ok f /\ statistic (const_stats (1 / 2)) (length (axis_data 3 2 c)) = Some (1 / 2) /\
  0 < vz (p_s f) /\ eigenvalues f = Some e /\ sampling_axes (const_stats (1 / 2)) f = Some hs /\ noise_axes (const_stats (1 / 2)) f = Some hn /\
  let a := noise_share (1 / 2) 6 in let b := sampling_share (1 / 2) 6 in let q := sqrt (vz e / vy e) in
  b < 1 /\ 2 * a * q < 1 /\ vx hs * vy hs <> 0 /\ vx hn * vy hn <> 0 /\
  (c = 1 -> b - a + a * b <= q * (a * (1 + b))) /\ (c = 1 / 4 -> q * (a * (1 + b)) < b - a + a * b).
Proof.
  intros c C. destruct (axis_fit 3 2 c) as [f F].
  assert (CP : 0 < c <= 2) by (destruct C; subst; lra).
  pose proof (axis_singular _ 3 2 c _ lapack_ref ltac:(lra) ltac:(lra) F) as ES.
  assert (P2 : 0 < sqrt 2) by (apply sqrt_lt_R0; lra).
  assert (PZ : 0 < vz (p_s f)) by (rewrite ES; cbn [vz]; apply Rmult_lt_0_compat; lra).
  assert (ST : statistic (const_stats (1 / 2)) (length (axis_data 3 2 c)) = Some (1 / 2)) by reflexivity.
  destruct (axes_values svd_ref _ _ _ (1 / 2) lapack_ref F ST ltac:(lra)) as (e & E & SO & N3 & EV & HS & HN).
  destruct (shares _ _ _ _ _ _ _ _ lapack_ref F ST ltac:(lra) PZ HS HN E) as (E2 & E1 & A & B & AB & Q & YS & ZS & YN & ZN & XS & XN).
  eexists f, e, _, _. split; [exact F|]. split; [exact ST|]. split; [exact PZ|]. split; [exact E|]. split; [exact HS|]. split; [exact HN|].
  set (hs := axes_value (mkKw _ _ _ _ _) _ _ _) in *. set (hn := axes_value default_kw _ _ _) in *. clearbody hs hn.
  change (length (axis_data 3 2 c)) with 6%nat in *. cbv zeta.
  assert (QE : sqrt (vz e / vy e) = c / 2).
  { rewrite EV, ES. cbn [vx vy vz]. replace (INR 6 - 1) with 5 by (simpl; ring).
    replace (sqrt 2 * c * (sqrt 2 * c) / 5 / (sqrt 2 * 2 * (sqrt 2 * 2) / 5)) with (c / 2 * (c / 2)) by (field; lra). apply sqrt_square. lra. }
  assert (AE : noise_share (1 / 2) 6 = 1 / 4).
  { unfold noise_share. replace (INR 6 - 2) with (2 * 2) by (simpl; ring). rewrite sqrt_square by lra. field. }
  assert (BE : exists t, sampling_share (1 / 2) 6 = t / 2 /\ 0 < t /\ t * t = 2 / 5).
  { exists (sqrt (2 / 5)). unfold sampling_share. replace (2 / (INR 6 - 1)) with (2 / 5) by (simpl; field).
    split; [field|]. split; [apply sqrt_lt_R0; lra|apply sqrt_sqrt; lra]. }
  destruct BE as (t & BE & T & TT). rewrite QE, AE, BE in *.
  assert (T1 : 63 / 100 < t) by nra. assert (T2 : t < 64 / 100) by nra.
  assert (QX : sqrt (vz e / vx e) = c / 3).
  { rewrite EV, ES. cbn [vx vy vz]. replace (INR 6 - 1) with 5 by (simpl; ring).
    replace (sqrt 2 * c * (sqrt 2 * c) / 5 / (sqrt 2 * 3 * (sqrt 2 * 3) / 5)) with (c / 3 * (c / 3)) by (field; lra). apply sqrt_square. lra. }
  rewrite QX in XN. destruct SO as (_ & _ & O0).
  assert (NZ : forall x y u v, x = Rabs (vx e * u) -> y = Rabs (vy e * v) -> u <> 0 -> v <> 0 -> x * y <> 0).
  { intros x y u v -> -> HU HV. apply Rmult_integral_contrapositive_currified; apply Rabs_no_R0, Rmult_integral_contrapositive_currified; lra. }
  split; [lra|]. split; [lra|]. split; [apply (NZ _ _ _ _ XS YS); lra|]. split; [apply (NZ _ _ _ _ XN YN); lra|].
  split; intros ->; lra.
Qed.

Print Assumptions C228_drawn.
Print Assumptions C228_exact.
Print Assumptions C228_bootstrap.
Print Assumptions C228_crossing.
Print Assumptions C228_units.
