(** C200: a fit in floating point. *)
From Coq Require Import Reals Lra Lia List Psatz Permutation Arith.
From Verif Require Import RVec Trig SpecPlane SpecStable MPca MFloat LSvd LPca LAngles LExamples LStable PStable.
Import ListNotations.
Open Scope R_scope.

Lemma fl_sum_nonempty : forall rnd xs a, fl_sum rnd xs a -> xs <> [].
Proof.
  intros rnd xs a H. induction H; [discriminate| |].
  - intro E. apply app_eq_nil in E. tauto.
  - intro E. subst. apply Permutation_sym, Permutation_nil in H. tauto.
Qed.
Lemma fl_sum_error : forall u rnd xs a, rounds u rnd -> fl_sum rnd xs a ->
  Rabs (a - sumf (fun x => x) xs) <= ((1 + u) ^ (length xs - 1) - 1) * sumf Rabs xs.
Proof.
  intros u rnd xs a (U & RN) H. induction H as [x|xs ys a b Hx IHx Hy IHy|xs ys a P Hx IHx].
  - simpl. replace (x - (x + 0)) with 0 by ring. rewrite Rabs_R0. lra.
  - rewrite app_length, !sumf_app.
    assert (LX : (1 <= length xs)%nat) by (apply fl_sum_nonempty in Hx; destruct xs; [congruence|simpl; lia]).
    assert (LY : (1 <= length ys)%nat) by (apply fl_sum_nonempty in Hy; destruct ys; [congruence|simpl; lia]).
    set (m := (length xs + length ys - 2)%nat).
    replace (length xs + length ys - 1)%nat with (S m) by (unfold m; lia).
    set (g := (1 + u) ^ m).
    assert (GX : (1 + u) ^ (length xs - 1) <= g) by (apply Rle_pow; [lra|unfold m; lia]).
    assert (GY : (1 + u) ^ (length ys - 1) <= g) by (apply Rle_pow; [lra|unfold m; lia]).
    assert (G1 : 1 <= g) by (unfold g; apply pow_R1_Rle; lra).
    replace ((1 + u) ^ S m) with ((1 + u) * g) by reflexivity.
    assert (PX : 0 <= sumf Rabs xs) by (apply sumf_nonneg; intros; apply Rabs_pos).
    assert (PY : 0 <= sumf Rabs ys) by (apply sumf_nonneg; intros; apply Rabs_pos).
    assert (TX : Rabs (sumf (fun x => x) xs) <= sumf Rabs xs).
    { clear. induction xs; simpl; [rewrite Rabs_R0; lra|]. eapply Rle_trans; [apply Rabs_triang|]. lra. }
    assert (TY : Rabs (sumf (fun x => x) ys) <= sumf Rabs ys).
    { clear. induction ys; simpl; [rewrite Rabs_R0; lra|]. eapply Rle_trans; [apply Rabs_triang|]. lra. }
    set (sx := sumf (fun x => x) xs) in *. set (sy := sumf (fun x => x) ys) in *.
    set (X := sumf Rabs xs) in *. set (Y := sumf Rabs ys) in *.
    assert (EX : Rabs (a - sx) <= (g - 1) * X) by (eapply Rle_trans; [exact IHx|]; apply Rmult_le_compat_r; lra).
    assert (EY : Rabs (b - sy) <= (g - 1) * Y) by (eapply Rle_trans; [exact IHy|]; apply Rmult_le_compat_r; lra).
    clearbody sx sy X Y g.
    assert (AB : Rabs (a + b) <= g * (X + Y)).
    { replace (a + b) with ((a - sx) + (b - sy) + (sx + sy)) by ring.
      eapply Rle_trans; [apply Rabs_triang|]. eapply Rle_trans; [apply Rplus_le_compat; [apply Rabs_triang|apply Rabs_triang]|]. lra. }
    replace (rnd (a + b) - (sx + sy)) with ((rnd (a + b) - (a + b)) + ((a - sx) + (b - sy))) by ring.
    eapply Rle_trans; [apply Rabs_triang|].
    apply Rle_trans with (u * (g * (X + Y)) + ((g - 1) * X + (g - 1) * Y)).
    + apply Rplus_le_compat.
      * eapply Rle_trans; [apply RN|]. apply Rmult_le_compat_l; auto.
      * eapply Rle_trans; [apply Rabs_triang|]. lra.
    + apply Req_le. ring.
  - rewrite <- (Permutation_length P), <- !(sumf_perm _ _ _ _ P). exact IHx.
Qed.

(** error of a computed mean and of a computed difference from it *)
Definition delta (u : R) (n : nat) (X : R) : R := ((1 + u) ^ S n - 1 + u) * X.
Lemma fl_mean_error : forall u rnd xs a X n, rounds u rnd -> fl_sum rnd xs a -> n = length xs ->
  (forall x, In x xs -> Rabs x <= X) ->
  Rabs (rnd (a / INR n) - sumf (fun x => x) xs / INR n) <= ((1 + u) ^ n - 1) * X /\
  Rabs (sumf (fun x => x) xs / INR n) <= X.
Proof.
  intros u rnd xs a X n RR H LN B. pose proof (fl_sum_error _ _ _ _ RR H) as E. destruct RR as (U & RN).
  assert (LX : (1 <= length xs)%nat) by (apply fl_sum_nonempty in H; destruct xs; [congruence|simpl; lia]).
  assert (NP : 0 < INR n) by (apply lt_0_INR; lia).
  assert (SB : sumf Rabs xs <= INR n * X).
  { rewrite LN. clear -B. induction xs; [simpl; lra|]. cbn [sumf]. cbn [length]. rewrite S_INR.
    specialize (IHxs ltac:(intros; apply B; right; auto)). specialize (B a ltac:(left; auto)). lra. }
  assert (TX : Rabs (sumf (fun x => x) xs) <= sumf Rabs xs).
  { clear. induction xs; simpl; [rewrite Rabs_R0; lra|]. eapply Rle_trans; [apply Rabs_triang|]. lra. }
  set (s := sumf (fun x => x) xs) in *. rewrite <- LN in E.
  set (g := (1 + u) ^ (n - 1)) in *.
  assert (G1 : 1 <= g) by (unfold g; apply pow_R1_Rle; lra).
  assert (GN : (1 + u) ^ n = (1 + u) * g) by (unfold g; replace n with (S (n - 1)) at 1 by lia; reflexivity).
  assert (DV : forall t, Rabs (t / INR n) = Rabs t / INR n).
  { intros t. unfold Rdiv. rewrite Rabs_mult, (Rabs_right (/ INR n)); auto. apply Rle_ge, Rlt_le, Rinv_0_lt_compat; auto. }
  assert (MB : Rabs (s / INR n) <= X).
  { rewrite DV. apply Rmult_le_reg_r with (INR n); auto. unfold Rdiv. rewrite Rmult_assoc, Rinv_l by lra. lra. }
  assert (AE : Rabs (a / INR n - s / INR n) <= (g - 1) * X).
  { replace (a / INR n - s / INR n) with ((a - s) / INR n) by (field; lra). rewrite DV.
    apply Rmult_le_reg_r with (INR n); auto. unfold Rdiv. rewrite Rmult_assoc, Rinv_l by lra. rewrite Rmult_1_r.
    eapply Rle_trans; [exact E|]. rewrite (Rmult_assoc (g - 1)). apply Rmult_le_compat_l; lra. }
  split; auto. rewrite GN.
  replace (rnd (a / INR n) - s / INR n) with ((rnd (a / INR n) - a / INR n) + (a / INR n - s / INR n)) by ring.
  eapply Rle_trans; [apply Rabs_triang|].
  assert (AA : Rabs (a / INR n) <= g * X).
  { replace (a / INR n) with ((a / INR n - s / INR n) + s / INR n) by ring. eapply Rle_trans; [apply Rabs_triang|]. lra. }
  pose proof (RN (a / INR n)) as R1.
  assert (u * Rabs (a / INR n) <= u * (g * X)) by (apply Rmult_le_compat_l; auto). lra.
Qed.
Lemma fl_diff_error : forall u rnd xs a X x, rounds u rnd -> fl_sum rnd xs a ->
  (forall x, In x xs -> Rabs x <= X) -> In x xs ->
  Rabs (rnd (x - rnd (a / INR (length xs))) - (x - sumf (fun x => x) xs / INR (length xs))) <= delta u (length xs) X.
Proof.
  intros u rnd xs a X x RR H B I. destruct (fl_mean_error _ _ _ _ X (length xs) RR H eq_refl B) as (ME & MB). destruct RR as (U & RN).
  set (m := rnd (a / INR (length xs))) in *. set (s := sumf (fun x => x) xs / INR (length xs)) in *.
  set (g := (1 + u) ^ length xs) in *. unfold delta. replace ((1 + u) ^ S (length xs)) with ((1 + u) * g) by reflexivity.
  assert (XM : Rabs (x - m) <= X + g * X).
  { replace (x - m) with (x + (- s) + (- (m - s))) by ring. eapply Rle_trans; [apply Rabs_triang|].
    rewrite Rabs_Ropp. eapply Rle_trans; [apply Rplus_le_compat_r, Rabs_triang|]. rewrite Rabs_Ropp.
    assert (Rabs x <= X) by auto. 
    assert (Rabs (x - s) <= 2 * X). { replace (x - s) with (x + - s) by ring. eapply Rle_trans; [apply Rabs_triang|]. rewrite Rabs_Ropp. lra. }
    lra. }
  replace (rnd (x - m) - (x - s)) with ((rnd (x - m) - (x - m)) + - (m - s)) by ring.
  eapply Rle_trans; [apply Rabs_triang|]. rewrite Rabs_Ropp.
  pose proof (RN (x - m)). assert (u * Rabs (x - m) <= u * (X + g * X)) by (apply Rmult_le_compat_l; auto). lra.
Qed.

(** how far the computed centred array is from the exact one *)
Theorem C200_centered : forall u rnd arr c X, rounds u rnd -> fl_centered rnd arr c ->
  (forall p, In p arr -> Rabs (vx p) <= X /\ Rabs (vy p) <= X /\ Rabs (vz p) <= X) ->
  Forall2 (fun p q => Rabs (vx q - vx p) <= delta u (length arr) X /\ Rabs (vy q - vy p) <= delta u (length arr) X /\
                      Rabs (vz q - vz p) <= delta u (length arr) X) (centered arr) c.
Proof.
  intros u rnd arr c X RR (m & (x & y & z & Sx & Sy & Sz & M) & C) B. simpl in M. subst m. subst c.
  assert (NE : arr <> []) by (apply fl_sum_nonempty in Sx; intro; subst; apply Sx; reflexivity).
  destruct (mean_exists arr NE) as [mu MU]. rewrite (centered_mean _ _ MU).
  assert (NP : 0 < INR (length arr)) by (apply lt_0_INR; destruct arr; [congruence|simpl; lia]).
  destruct MU as (_ & MU).
  assert (M0 : vx mu = sumf (fun x => x) (map vx arr) / INR (length arr)).
  { rewrite sumf_map. replace (sumf (fun a => vx a) arr) with (vx (vsum arr)) by reflexivity. rewrite <- MU. simpl. field. lra. }
  assert (M1 : vy mu = sumf (fun x => x) (map vy arr) / INR (length arr)).
  { rewrite sumf_map. replace (sumf (fun a => vy a) arr) with (vy (vsum arr)) by reflexivity. rewrite <- MU. simpl. field. lra. }
  assert (M2 : vz mu = sumf (fun x => x) (map vz arr) / INR (length arr)).
  { rewrite sumf_map. replace (sumf (fun a => vz a) arr) with (vz (vsum arr)) by reflexivity. rewrite <- MU. simpl. field. lra. }
  assert (G : forall p, In p arr ->
    Rabs (rnd (vx p - rnd (x / INR (length arr))) - (vx p - vx mu)) <= delta u (length arr) X /\
    Rabs (rnd (vy p - rnd (y / INR (length arr))) - (vy p - vy mu)) <= delta u (length arr) X /\
    Rabs (rnd (vz p - rnd (z / INR (length arr))) - (vz p - vz mu)) <= delta u (length arr) X).
  { intros p I. rewrite M0, M1, M2.
    pose proof (fl_diff_error u rnd _ x X (vx p) RR Sx) as D0. pose proof (fl_diff_error u rnd _ y X (vy p) RR Sy) as D1.
    pose proof (fl_diff_error u rnd _ z X (vz p) RR Sz) as D2. rewrite map_length in D0, D1, D2.
    split; [|split]; [apply D0|apply D1|apply D2]; try (apply in_map; auto);
      intros t T; apply in_map_iff in T; destruct T as (q & <- & Q); apply B; auto. }
  clear -G. revert G. generalize (delta u (length arr) X). generalize (INR (length arr)). intros n dl.
  induction arr as [|p t IH]; intros G; simpl; [constructor|]. constructor.
  - simpl. apply G. left; auto.
  - apply IH. intros q Q. apply G. right; auto.
Qed.
Lemma delta_nonneg : forall u n X, 0 <= u -> 0 <= X -> 0 <= delta u n X.
Proof. intros u n X U XP. unfold delta. apply Rmult_le_pos; auto. assert (1 <= (1 + u) ^ S n) by (apply pow_R1_Rle; lra). lra. Qed.

(** and of the computed singular values, normal, strike and dip from those of the
    exact fit *)
Theorem C200_fit : forall u rnd eta svd0 svd arr f X s v,
  lapack svd0 -> PCAOrientation svd0 arr None None = Ok f ->
  rounds u rnd -> 0 <= eta -> lapack_float eta svd -> fl_fit rnd svd arr s v ->
  (forall p, In p arr -> Rabs (vx p) <= X /\ Rabs (vy p) <= X /\ Rabs (vz p) <= X) ->
  let r := delta u (length arr) X * sqrt (3 * INR (length arr)) in
  let E := r + eta * (size (centered arr) + r) in
  let gap := vy (p_s f) - vz (p_s f) in
  Rabs (vx s - vx (p_s f)) <= E /\ Rabs (vy s - vy (p_s f)) <= E /\ Rabs (vz s - vz (p_s f)) <= E /\
  (E < gap ->
    norm (cross (r2 (p_axes f)) (r2 v)) <= sqrt 2 * E / (gap - E) /\
    forall st d st' d', strike_dip f = Some (st, d) -> strike_dip_of (r2 v) = Some (st', d') ->
      Rabs (sin (radians (d' - d))) <= sqrt 2 * E / (gap - E) /\
      sin (radians d) * sin (radians d') * Rabs (sin (radians (st' - st))) <= sqrt 2 * E / (gap - E)).
Proof.
  intros u rnd eta svd0 svd arr f X s v L0 F RR ET LF (N3 & c & w & FC & EV) B r E gap.
  destruct (fit_inv _ _ _ L0 F) as (_ & u0 & m & S & _).
  pose proof (C200_centered _ _ _ _ _ RR FC B) as CC.
  assert (XP : 0 <= X). { destruct arr as [|p t]; [simpl in N3; lia|]. destruct (B p (or_introl eq_refl)) as (b & _). pose proof (Rabs_pos (vx p)). lra. }
  pose proof (delta_nonneg u (length arr) X (proj1 RR) XP) as DP.
  pose proof (pos_INR (length arr)) as NP.
  assert (N1 : near r (centered arr) c).
  { split; [apply Rmult_le_pos; auto; apply sqrt_pos|].
    assert (LN : length (centered arr) = length c) by (clear -CC; induction CC; simpl; congruence). split; auto.
    replace (r * r) with (delta u (length arr) X * delta u (length arr) X * (3 * INR (length (centered arr)))).
    2:{ rewrite centered_length. unfold r. transitivity (delta u (length arr) X * delta u (length arr) X * (sqrt (3 * INR (length arr)) * sqrt (3 * INR (length arr)))); [rewrite sqrt_sqrt by lra; ring|ring]. }
    clear -CC DP. revert CC DP. generalize (delta u (length arr) X). intros dl CC DP.
    induction CC as [|p q a b H M IH]; [simpl; lra|].
    change (combine (p :: a) (q :: b)) with ((p, q) :: combine a b). cbn [sumf]. cbn [length]. rewrite S_INR.
    assert (nrm2 (vsub q p) <= 3 * (dl * dl)).
    { assert (K : forall t, Rabs t <= dl -> t * t <= dl * dl).
      { intros t T. rewrite <- (Rabs_right (t * t)) by apply Rle_ge, Rle_0_sqr. rewrite Rabs_mult. apply Rmult_le_compat; auto; apply Rabs_pos. }
      destruct H as (h0 & h1 & h2). apply K in h0. apply K in h1. apply K in h2. vunf. lra. }
    lra. }
  assert (LC : (3 <= length c)%nat) by (destruct N1 as (_ & LN & _); rewrite <- LN, centered_length; auto).
  pose proof (LF c LC) as K. rewrite EV in K. destruct K as (c' & N2 & S').
  assert (SZ : size c <= size (centered arr) + r).
  { unfold size. pose proof (sqrt_pos (sumf nrm2 (centered arr))) as SP. destruct N1 as (R0 & LN & NN).
    assert (ZN : forall l, near (sqrt (sumf nrm2 l)) (map (fun _ => vzero) l) l).
    { intros l. split; [apply sqrt_pos|]. split; [now rewrite map_length|]. rewrite sqrt_sqrt by (apply sumf_nonneg; intros; apply nrm2_nonneg).
      apply Req_le. induction l as [|p l IH]; simpl; auto. rewrite IH. f_equal. vunf. ring. }
    pose proof (near_trans _ _ _ _ _ (ZN (centered arr)) (conj R0 (conj LN NN))) as (_ & _ & T).
    apply sq_le; [lra|]. rewrite sqrt_sqrt by (apply sumf_nonneg; intros; apply nrm2_nonneg).
    eapply Rle_trans; [|exact T]. apply Req_le. clear -LN. revert c LN. induction (centered arr) as [|p l IH]; destruct c as [|q c]; simpl; intros; try discriminate; auto.
    rewrite <- IH by auto. f_equal. vunf. ring. }
  assert (N3' : near E (centered arr) c').
  { pose proof (near_trans _ _ _ _ _ N1 N2) as (h1 & h2 & h3).
    assert (LE : r + eta * size c <= E) by (unfold E; apply Rplus_le_compat_l, Rmult_le_compat_l; auto).
    split; [lra|]. split; auto. eapply Rle_trans; [exact h3|]. apply Rmult_le_compat; auto. }
  destruct (near_svd _ _ _ _ _ _ _ _ _ N3' S S') as (h0 & h1 & h2 & h3).
  split; auto. split; auto. split; auto. intros G.
  assert (TN : norm (cross (r2 (p_axes f)) (r2 v)) <= sqrt 2 * E / (gap - E)).
  { apply Rmult_le_reg_r with (gap - E); [lra|]. replace (sqrt 2 * E / (gap - E) * (gap - E)) with (sqrt 2 * E) by (field; lra).
    apply h3. unfold gap in G. lra. }
  split; auto. intros st d st' d' H H'.
  destruct (tilt_dip _ _ _ _ _ _ (orthonormal_unit2 _ (svd_v _ _ _ _ S)) (orthonormal_unit2 _ (svd_v _ _ _ _ S')) H H') as (k1 & k2). lra.
Qed.

(** how small the error is: at most 2 (n + 2) u times the largest coordinate while
    n u is small *)
Theorem C200_size : forall u n X, 0 <= u -> 0 <= X -> 2 * INR (S n) * u <= 1 -> delta u n X <= 2 * INR (S (S n)) * u * X.
Proof.
  intros u n X U XP H. unfold delta. apply Rmult_le_compat_r; auto.
  assert (P : forall k, 2 * INR k * u <= 1 -> (1 + u) ^ k <= 1 + 2 * INR k * u).
  { induction k; intros HK; [simpl; lra|]. rewrite S_INR in *. specialize (IHk ltac:(lra)).
    change ((1 + u) ^ S k) with ((1 + u) * (1 + u) ^ k).
    apply Rle_trans with ((1 + u) * (1 + 2 * INR k * u)); [apply Rmult_le_compat_l; lra|].
    pose proof (pos_INR k). assert (2 * INR k * u * u <= 1 * u) by (apply Rmult_le_compat_r; lra). lra. }
  specialize (P (S n) H). rewrite !S_INR in *. lra.
Qed.
(** every operation too large by the relative error of a double *)
Lemma fl_sum_exists : forall rnd l, l <> [] -> exists a, fl_sum rnd l a.
Proof.
  induction l as [|x l IH]; [congruence|]. intros _. destruct l as [|y l]; [exists x; constructor|].
  destruct IH as [a A]; [discriminate|]. exists (rnd (x + a)). apply (fl_add rnd [x] (y :: l)); [constructor|auto].
Qed.
Example C200_ex : let u := 1 / 2 ^ 53 in let rnd := fun x => x * (1 + u) in
  rounds u rnd /\ lapack_float 0 svd_ref /\ 2 * INR 7 * u <= 1 /\
  (forall p, In p tilted_data -> Rabs (vx p) <= 3 /\ Rabs (vy p) <= 3 /\ Rabs (vz p) <= 3) /\
  exists s v, fl_fit rnd svd_ref tilted_data s v.
Proof.
  intros u rnd. assert (P : 0 < 2 ^ 53) by (apply pow_lt; lra).
  assert (U : 0 < u) by (apply Rdiv_lt_0_compat; lra).
  split; [|split; [|split; [|split]]].
  - split; [lra|]. intros x. unfold rnd. replace (x * (1 + u) - x) with (u * x) by ring. rewrite Rabs_mult, (Rabs_right u) by lra. lra.
  - intros a L. pose proof (lapack_ref a L) as K. unfold svd_ok_on in K. destruct (svd_ref a) as [[u0 s] v]. exists a. split; auto.
    split; [lra|]. split; auto. replace (0 * size a * (0 * size a)) with 0 by ring. apply Req_le.
    clear. induction a; simpl; auto. rewrite IHa. vunf. ring.
  - assert (u <= 1 / 2 ^ 5). { unfold u, Rdiv. apply Rmult_le_compat_l; [lra|]. apply Rinv_le_contravar; [apply pow_lt; lra|]. apply Rle_pow; [lra|lia]. }
    simpl in *. lra.
  - intros p I. unfold tilted_data, axis_data, rot345 in I. simpl in I. munf.
    repeat destruct I as [I|I]; try contradiction; subst p; simpl; (split; [apply Rabs_le; lra|]); split; apply Rabs_le; lra.
  - destruct (fl_sum_exists rnd (map vx tilted_data) ltac:(discriminate)) as [x X].
    destruct (fl_sum_exists rnd (map vy tilted_data) ltac:(discriminate)) as [y Y].
    destruct (fl_sum_exists rnd (map vz tilted_data) ltac:(discriminate)) as [z Z].
    set (n := INR (length tilted_data)). set (m := V3 (rnd (x / n)) (rnd (y / n)) (rnd (z / n))).
    set (c := map (fun p => V3 (rnd (vx p - vx m)) (rnd (vy p - vy m)) (rnd (vz p - vz m))) tilted_data).
    destruct (svd_ref c) as [[w s] v] eqn:ES. exists s, v. split; [simpl; lia|]. exists c, w. split; auto.
    exists m. split; [|reflexivity]. exists x, y, z. repeat split; auto.
Qed.

Print Assumptions C200_centered.
Print Assumptions C200_fit.
Print Assumptions C200_size.
