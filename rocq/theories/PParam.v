(** Conic sections drawn by display/parametric.py: C144-C147. *)
From Coq Require Import Reals Lra Lia List Arith Bool Psatz.
From Verif Require Import RVec Trig MPca MAxes MStereo MParam SpecParam.
Import ListNotations.
Open Scope R_scope.

(** * argmin *)
Lemma argmin_from_spec : forall l i k m,
  (argmin_from i k m l = k /\ forall j, (j < length l)%nat -> m <= nth j l 0) \/
  (exists r, (r < length l)%nat /\ argmin_from i k m l = (i + r)%nat /\ nth r l 0 < m /\
     (forall j, (j < r)%nat -> nth r l 0 < nth j l 0) /\ (forall j, (j < length l)%nat -> nth r l 0 <= nth j l 0)).
Proof.
  induction l as [|x t IH]; intros i k m; cbn [argmin_from length].
  - left. split; [reflexivity|intros j J; lia].
  - destruct (Rlt_dec x m) as [X|X].
    + right. destruct (IH (S i) i x) as [[E A]|(r & R1 & E & L & B & C)].
      * exists 0%nat. rewrite E. cbn [nth]. repeat split; [lia|lia|auto|intros j J; lia|].
        intros [|j] J; [lra|]. apply A. lia.
      * exists (S r). rewrite E. cbn [nth]. repeat split; [lia|lia|lra| |].
        -- intros [|j] J; [auto|]. apply B. lia.
        -- intros [|j] J; [lra|]. apply C. lia.
    + destruct (IH (S i) k m) as [[E A]|(r & R1 & E & L & B & C)].
      * left. split; [auto|]. intros [|j] J; cbn [nth]; [lra|]. apply A. lia.
      * right. exists (S r). rewrite E. cbn [nth]. repeat split; [lia|lia|auto| |].
        -- intros [|j] J; [lra|]. apply B. lia.
        -- intros [|j] J; [lra|]. apply C. lia.
Qed.
Lemma argmin_spec : forall l, l <> [] -> let r := argmin l in (r < length l)%nat /\
  (forall j, (j < r)%nat -> nth r l 0 < nth j l 0) /\ (forall j, (j < length l)%nat -> nth r l 0 <= nth j l 0).
Proof.
  intros [|x t] H; [congruence|]. unfold argmin. cbv zeta.
  destruct (argmin_from_spec t 1 0 x) as [[E A]|(r & R1 & E & L & B & C)]; rewrite E; cbn [length].
  - split; [lia|]. split; [intros j J; lia|]. intros [|j] J; cbn [nth]; [lra|]. apply A. lia.
  - change (1 + r)%nat with (S r). cbn [nth]. split; [lia|]. split.
    + intros [|j] J; [auto|]. apply B. lia.
    + intros [|j] J; [lra|]. apply C. lia.
Qed.
Lemma argmin_first : forall l k, (k < length l)%nat -> (forall j, (j < k)%nat -> nth k l 0 < nth j l 0) ->
  (forall j, (j < length l)%nat -> nth k l 0 <= nth j l 0) -> argmin l = k.
Proof.
  intros l k K A B. assert (NE : l <> []) by (intros ->; cbn in K; lia).
  destruct (argmin_spec l NE) as (R1 & R2 & R3). set (r := argmin l) in *.
  destruct (lt_eq_lt_dec r k) as [[X|X]|X]; [|auto|].
  - specialize (A r X). specialize (R3 k K). lra.
  - specialize (R2 k X). specialize (B r R1). lra.
Qed.
Lemma nth_opp : forall l k, nth k (map Ropp l) 0 = - nth k l 0.
Proof. intros l k. rewrite <- (Ropp_0) at 1. apply map_nth. Qed.
Lemma argmax_spec : forall l, l <> [] -> let r := argmax l in (r < length l)%nat /\
  (forall j, (j < r)%nat -> nth j l 0 < nth r l 0) /\ (forall j, (j < length l)%nat -> nth j l 0 <= nth r l 0).
Proof.
  intros l H. assert (H' : map Ropp l <> []) by (destruct l; [congruence|discriminate]).
  destruct (argmin_spec _ H') as (A & B & C). unfold argmax. cbv zeta. rewrite map_length in *.
  set (r := argmin (map Ropp l)) in *. split; [auto|]. split; intros j J.
  - specialize (B j J). rewrite !nth_opp in B. lra.
  - specialize (C j J). rewrite !nth_opp in C. lra.
Qed.
Lemma argmax_first : forall l k, (k < length l)%nat -> (forall j, (j < k)%nat -> nth j l 0 < nth k l 0) ->
  (forall j, (j < length l)%nat -> nth j l 0 <= nth k l 0) -> argmax l = k.
Proof.
  intros l k K A B. unfold argmax. apply argmin_first.
  - now rewrite map_length.
  - intros j J. rewrite !nth_opp. specialize (A j J). lra.
  - rewrite map_length. intros j J. rewrite !nth_opp. specialize (B j J). lra.
Qed.

(** * The arrays *)
Definition angle (n i : nat) : R := if (n =? 1)%nat then 0 else INR i * (2 * PI / INR (n - 1)).
Lemma lin_length : forall n, length (linspace2pi n) = n.
Proof. intros. unfold linspace2pi. now rewrite map_length, seq_length. Qed.
Lemma lin_nth : forall n i d, (i < n)%nat -> nth i (linspace2pi n) d = angle n i.
Proof.
  intros n i d I. unfold linspace2pi. rewrite (nth_indep _ d (angle n 0)) by now rewrite map_length, seq_length.
  change (fun i0 : nat => if (n =? 1)%nat then 0 else INR i0 * (2 * PI / INR (n - 1))) with (angle n).
  rewrite map_nth, seq_nth by auto. reflexivity.
Qed.
Lemma map_lin_nth : forall {A} (f : R -> A) n i d, (i < n)%nat -> nth i (map f (linspace2pi n)) d = f (angle n i).
Proof.
  intros A f n i d I. rewrite (nth_indep _ d (f 0)) by now rewrite map_length, lin_length.
  rewrite map_nth, lin_nth by auto. reflexivity.
Qed.
Lemma remove_length : forall e l, length (remove_asymptotes e l) = length l.
Proof. intros. unfold remove_asymptotes. rewrite map_length, combine_length, seq_length. lia. Qed.
Lemma remove_nth : forall e l i, (i < length l)%nat ->
  nth i (remove_asymptotes e l) None = if (i =? fst e)%nat || (i =? snd e)%nat then None else Some (nth i l 0).
Proof.
  intros e l i I. unfold remove_asymptotes.
  match goal with |- nth i (map ?f _) _ = _ => set (g := f) end.
  rewrite (nth_indep _ None (g (0%nat, 0))) by (rewrite map_length, combine_length, seq_length; lia).
  rewrite map_nth. rewrite combine_nth by now rewrite seq_length. rewrite seq_nth by auto. reflexivity.
Qed.

Lemma Ok_inj : forall {A} (u v : A), Ok u = Ok v -> u = v.
Proof. congruence. Qed.
(** what the two arrays hold *)
Definition ux (up : bool) (t : R) : R := if up then tan t else 1 / cos t.
Definition uy (up : bool) (t : R) : R := if up then 1 / cos t else tan t.
Lemma hyperbola_value : forall a b up cx cy n, (0 < n)%nat -> (forall i, (i < n)%nat -> cos (angle n i) <> 0) ->
  let x := map (fun t => a * ux up t + cx) (linspace2pi n) in
  let y := map (fun t => b * uy up t + cy) (linspace2pi n) in
  hyperbola (a, b) up (cx, cy) n = Ok (remove_asymptotes (argmin x, argmax x) x, remove_asymptotes (argmin x, argmax x) y).
Proof.
  intros a b up cx cy n N C x y. unfold hyperbola. cbn [fst snd].
  replace (existsb (fun t => if Req_EM_T (cos t) 0 then true else false) (linspace2pi n)) with false.
  - assert (EX : map (fun v => a * v + cx) (fst (if up then (map tan (linspace2pi n), map (fun t => 1 / cos t) (linspace2pi n))
        else (map (fun t => 1 / cos t) (linspace2pi n), map tan (linspace2pi n)))) = x).
    { unfold x, ux. destruct up; cbn [fst]; rewrite map_map; reflexivity. }
    assert (EY : map (fun v => b * v + cy) (snd (if up then (map tan (linspace2pi n), map (fun t => 1 / cos t) (linspace2pi n))
        else (map (fun t => 1 / cos t) (linspace2pi n), map tan (linspace2pi n)))) = y).
    { unfold y, uy. destruct up; cbn [snd]; rewrite map_map; reflexivity. }
    rewrite EX, EY. destruct x eqn:E; [|reflexivity].
    assert (L : length x = n) by (unfold x; now rewrite map_length, lin_length). rewrite E in L. cbn in L. lia.
  - symmetry. apply not_true_iff_false. intros H. apply existsb_exists in H. destruct H as (t & I & T).
    apply (In_nth _ _ 0) in I. destruct I as (i & L & E). rewrite lin_length in L. rewrite lin_nth in E by auto. subst t.
    destruct (Req_EM_T (cos (angle n i)) 0); [now apply (C i)|discriminate].
Qed.
Lemma hyperbola_finite : forall a b up c n r, hyperbola (a, b) up c n = Ok r -> (0 < n)%nat /\ forall i, (i < n)%nat -> cos (angle n i) <> 0.
Proof.
  intros a b up c n r H. unfold hyperbola in H.
  destruct (existsb _ (linspace2pi n)) eqn:E; [discriminate|]. split.
  - destruct n; [|lia]. destruct up; cbn in H; discriminate.
  - intros i I Z. apply not_true_iff_false in E. apply E. apply existsb_exists. exists (angle n i). split.
    + rewrite <- (lin_nth n i 0 I). apply nth_In. now rewrite lin_length.
    + destruct (Req_EM_T (cos (angle n i)) 0); [reflexivity|lra].
Qed.

(** C144: the points lie on the curve; only the two extreme abscissae are left out *)
Theorem C144_hyperbola : forall a b up c n xy, a <> 0 -> b <> 0 -> hyperbola (a, b) up c n = Ok xy ->
  length (fst xy) = n /\ length (snd xy) = n /\
  (forall i p, drawn xy i = Some p -> if up then on_hyperbola a b c p else on_hyperbola_x a b c p) /\
  (exists lo hi, (lo < n)%nat /\ (hi < n)%nat /\
     (forall i, (i < n)%nat -> (drawn xy i = None <-> i = lo \/ i = hi)) /\
     forall i, (i < n)%nat -> let x i := a * (if up then tan (angle n i) else 1 / cos (angle n i)) in x lo <= x i <= x hi).
Proof.
  intros a b up [cx cy] n xy A0 B0 H. destruct (hyperbola_finite _ _ _ _ _ _ H) as [N C].
  rewrite hyperbola_value in H by auto. cbv zeta in H. apply Ok_inj in H. subst xy.
  set (x := map (fun t => a * ux up t + cx) (linspace2pi n)). set (y := map (fun t => b * uy up t + cy) (linspace2pi n)).
  assert (LX : length x = n) by (unfold x; now rewrite map_length, lin_length).
  assert (LY : length y = n) by (unfold y; now rewrite map_length, lin_length).
  assert (NX : forall i, (i < n)%nat -> nth i x 0 = a * ux up (angle n i) + cx) by (intros; unfold x; now rewrite map_lin_nth).
  assert (NY : forall i, (i < n)%nat -> nth i y 0 = b * uy up (angle n i) + cy) by (intros; unfold y; now rewrite map_lin_nth).
  cbn [fst snd]. rewrite !remove_length. split; [auto|]. split; [auto|].
  assert (D : forall i, (i < n)%nat -> drawn (remove_asymptotes (argmin x, argmax x) x, remove_asymptotes (argmin x, argmax x) y) i =
     if (i =? argmin x)%nat || (i =? argmax x)%nat then None else Some (nth i x 0, nth i y 0)).
  { intros i I. unfold drawn. cbn [fst snd]. rewrite !remove_nth by congruence. cbn [fst snd].
    destruct ((i =? argmin x)%nat || (i =? argmax x)%nat); reflexivity. }
  assert (XN : x <> []) by (intros E; rewrite E in LX; cbn in LX; lia).
  split.
  - intros i p P. destruct (lt_dec i n) as [I|I].
    + rewrite D in P by auto. destruct (_ || _); [discriminate|]. injection P as <-. rewrite NX, NY by auto.
      pose proof (C i I) as CI. set (t := angle n i) in *.
      pose proof (sin2_cos2 t) as S. unfold Rsqr in S.
      assert (K : 1 / cos t * (1 / cos t) - tan t * tan t = 1).
      { unfold tan. apply (Rmult_eq_reg_r (cos t * cos t)); [|nra].
        replace ((1 / cos t * (1 / cos t) - sin t / cos t * (sin t / cos t)) * (cos t * cos t)) with (1 - sin t * sin t) by (field; auto). lra. }
      destruct up; unfold on_hyperbola, on_hyperbola_x, ux, uy; cbn [fst snd]; (transitivity (1 / cos t * (1 / cos t) - tan t * tan t); [field; auto|exact K]).
    + unfold drawn in P. cbn [fst snd] in P. rewrite nth_overflow in P by (rewrite remove_length; lia). discriminate.
  - destruct (argmin_spec x XN) as (M1 & _ & M2). destruct (argmax_spec x XN) as (M3 & _ & M4). rewrite LX in *.
    exists (argmin x), (argmax x). split; [auto|]. split; [auto|]. split.
    + intros i I. rewrite D by auto. destruct (Nat.eqb_spec i (argmin x)), (Nat.eqb_spec i (argmax x)); cbn [orb]; split; intros; auto; try tauto; try discriminate.
    + intros i I. specialize (M2 i I). specialize (M4 i I). rewrite !NX in * by auto. unfold ux in *. cbv zeta. destruct up; lra.
Qed.
Theorem C144_ellipse : forall a b c n, a <> 0 -> b <> 0 ->
  let xy := param_ellipse (a, b) c n in
  length (fst xy) = n /\ length (snd xy) = n /\
  (forall i, (i < n)%nat -> on_ellipse a b c (nth i (fst xy) 0, nth i (snd xy) 0)) /\
  ((1 < n)%nat -> nth 0 (fst xy) 0 = nth (n - 1) (fst xy) 0 /\ nth 0 (snd xy) 0 = nth (n - 1) (snd xy) 0).
Proof.
  intros a b [cx cy] n A0 B0 xy. unfold xy, param_ellipse. cbn [fst snd]. rewrite !map_length, !lin_length.
  split; [auto|]. split; [auto|]. split.
  - intros i I. rewrite !map_lin_nth by auto. unfold on_ellipse. cbn [fst snd]. set (t := angle n i).
    pose proof (sin2_cos2 t) as S. unfold Rsqr in S. transitivity (sin t * sin t + cos t * cos t); [field; auto|lra].
  - intros N. rewrite !map_lin_nth by lia. unfold angle. destruct (Nat.eqb_spec n 1); [lia|].
    assert (0 < INR (n - 1)) by (apply lt_0_INR; lia).
    replace (INR 0 * (2 * PI / INR (n - 1))) with 0 by (cbn [INR]; lra).
    replace (INR (n - 1) * (2 * PI / INR (n - 1))) with (2 * PI) by (field; lra).
    rewrite cos_0, sin_0, cos_2PI, sin_2PI. auto.
Qed.

(** * The gaps at the asymptotes *)
(** the angle [i] of [N + 1], up to a half turn, in units of pi / N *)
Definition rho (N i : nat) : Z :=
  if (4 * i <? N)%nat then (2 * Z.of_nat i)%Z
  else if (4 * i <? 3 * N)%nat then (2 * Z.of_nat i - Z.of_nat N)%Z
  else (2 * Z.of_nat i - 2 * Z.of_nat N)%Z.
Lemma rho_bound : forall N i, (i <= N)%nat -> (4 * i <> N)%nat -> (4 * i <> 3 * N)%nat -> (- Z.of_nat N < 2 * rho N i < Z.of_nat N)%Z.
Proof.
  intros N i I A B. unfold rho.
  destruct (Nat.ltb_spec (4 * i) N); [|destruct (Nat.ltb_spec (4 * i) (3 * N))]; lia.
Qed.
Lemma angle_S : forall N i, (0 < N)%nat -> angle (S N) i = INR i * (2 * PI / INR N).
Proof. intros N i H. unfold angle. destruct (Nat.eqb_spec (S N) 1); [lia|]. now replace (S N - 1)%nat with N by lia. Qed.
Lemma cos_shift : forall x, cos (x - PI) = - cos x.
Proof. intros. replace (cos x) with (cos (x - PI + PI)) by (f_equal; ring). rewrite neg_cos. ring. Qed.
Lemma sin_shift : forall x, sin (x - PI) = - sin x.
Proof. intros. replace (sin x) with (sin (x - PI + PI)) by (f_equal; ring). rewrite neg_sin. ring. Qed.
(** the reduced angle: same tangent, positive cosine, which is the cosine but for the sign *)
Lemma reduced : forall N i, (0 < N)%nat -> (i <= N)%nat -> (4 * i <> N)%nat -> (4 * i <> 3 * N)%nat ->
  let s := IZR (rho N i) * (PI / INR N) in
  - (PI / 2) < s < PI / 2 /\ tan (angle (S N) i) = tan s /\
  cos (angle (S N) i) = (if (4 * i <? N)%nat then 1 else if (4 * i <? 3 * N)%nat then -1 else 1) * cos s.
Proof.
  intros N i N0 I A B s. assert (P : 0 < INR N) by now apply lt_0_INR. pose proof PI_RGT_0 as PP.
  assert (U : 0 < PI / INR N) by (apply Rdiv_lt_0_compat; lra).
  pose proof (rho_bound N i I A B) as [L1 L2]. apply IZR_lt in L1, L2. rewrite opp_IZR, mult_IZR, <- INR_IZR_INZ in L1. rewrite mult_IZR, <- INR_IZR_INZ in L2.
  assert (E : PI / 2 = INR N / 2 * (PI / INR N)) by (field; lra).
  split. { unfold s. rewrite E. split; [|apply Rmult_lt_compat_r; lra]. rewrite Ropp_mult_distr_l. apply Rmult_lt_compat_r; lra. }
  rewrite angle_S by auto. unfold s, rho.
  destruct (Nat.ltb_spec (4 * i) N); [|destruct (Nat.ltb_spec (4 * i) (3 * N))].
  - replace (IZR (2 * Z.of_nat i) * (PI / INR N)) with (INR i * (2 * PI / INR N)) by (rewrite mult_IZR, <- INR_IZR_INZ; field; lra).
    split; [reflexivity|ring].
  - replace (IZR (2 * Z.of_nat i - Z.of_nat N) * (PI / INR N)) with (INR i * (2 * PI / INR N) - PI)
      by (rewrite minus_IZR, mult_IZR, <- !INR_IZR_INZ; field; lra).
    rewrite cos_shift. split; [|ring]. unfold tan. rewrite cos_shift, sin_shift.
    set (u := INR i * (2 * PI / INR N)). unfold Rdiv. rewrite Rinv_opp. ring.
  - replace (IZR (2 * Z.of_nat i - 2 * Z.of_nat N) * (PI / INR N)) with (INR i * (2 * PI / INR N) - PI - PI)
      by (rewrite minus_IZR, !mult_IZR, <- !INR_IZR_INZ; field; lra).
    unfold tan. rewrite !cos_shift, !sin_shift, !Ropp_involutive. split; [reflexivity|ring].
Qed.
Lemma tan_rho : forall N i j, (0 < N)%nat -> (i <= N)%nat -> (j <= N)%nat -> (4 * i <> N)%nat -> (4 * i <> 3 * N)%nat ->
  (4 * j <> N)%nat -> (4 * j <> 3 * N)%nat ->
  ((rho N i < rho N j)%Z -> tan (angle (S N) i) < tan (angle (S N) j)) /\
  ((rho N i <= rho N j)%Z -> tan (angle (S N) i) <= tan (angle (S N) j)).
Proof.
  intros N i j N0 I J A B A' B'. destruct (reduced N i N0 I A B) as (L & -> & _). destruct (reduced N j N0 J A' B') as (L' & -> & _).
  assert (U : 0 < PI / INR N) by (apply Rdiv_lt_0_compat; [apply PI_RGT_0|now apply lt_0_INR]).
  assert (K : (rho N i < rho N j)%Z -> tan (IZR (rho N i) * (PI / INR N)) < tan (IZR (rho N j) * (PI / INR N))).
  { intros H. apply tan_increasing; [lra| |lra]. apply IZR_lt in H. now apply Rmult_lt_compat_r. }
  split; [auto|]. intros H. destruct (Z_le_lt_eq_dec _ _ H) as [X|X]; [left; auto|right; now rewrite X].
Qed.
Lemma cos_side : forall N i, (0 < N)%nat -> (i <= N)%nat -> (4 * i <> N)%nat -> (4 * i <> 3 * N)%nat ->
  if (4 * i <? N)%nat then 0 < cos (angle (S N) i) else if (4 * i <? 3 * N)%nat then cos (angle (S N) i) < 0 else 0 < cos (angle (S N) i).
Proof.
  intros N i N0 I A B. destruct (reduced N i N0 I A B) as (L & _ & E).
  assert (0 < cos (IZR (rho N i) * (PI / INR N))) by (apply cos_gt_0; lra).
  destruct (Nat.ltb_spec (4 * i) N); [|destruct (Nat.ltb_spec (4 * i) (3 * N))]; rewrite E; lra.
Qed.
Lemma cos_nonzero : forall N i, (0 < N)%nat -> (i <= N)%nat -> (4 * i <> N)%nat -> (4 * i <> 3 * N)%nat -> cos (angle (S N) i) <> 0.
Proof.
  intros N i N0 I A B. pose proof (cos_side N i N0 I A B).
  destruct (Nat.ltb_spec (4 * i) N); [|destruct (Nat.ltb_spec (4 * i) (3 * N))]; lra.
Qed.

(** what the plot holds when no angle is a right one *)
Lemma drawn_value : forall a b up cx cy N k p, (0 < N)%nat -> (forall i, (i <= N)%nat -> cos (angle (S N) i) <> 0) ->
  forall xy, hyperbola (a, b) up (cx, cy) (S N) = Ok xy ->
  let x := map (fun t => a * ux up t + cx) (linspace2pi (S N)) in
  (drawn xy k = Some p <-> (k <= N)%nat /\ k <> argmin x /\ k <> argmax x /\
     p = (a * ux up (angle (S N) k) + cx, b * uy up (angle (S N) k) + cy)).
Proof.
  intros a b up cx cy N k p N0 C xy H x. rewrite hyperbola_value in H by (lia || (intros; apply C; lia)). cbv zeta in H. fold x in H.
  apply Ok_inj in H. subst xy. unfold drawn. cbn [fst snd].
  set (y := map (fun t => b * uy up t + cy) (linspace2pi (S N))).
  assert (LX : length x = S N) by (unfold x; now rewrite map_length, lin_length).
  assert (LY : length y = S N) by (unfold y; now rewrite map_length, lin_length).
  destruct (le_dec k N) as [K|K].
  - rewrite !remove_nth by lia. cbn [fst snd]. assert (NX : nth k x 0 = a * ux up (angle (S N) k) + cx) by (unfold x; now rewrite map_lin_nth by lia).
    assert (NY : nth k y 0 = b * uy up (angle (S N) k) + cy) by (unfold y; now rewrite map_lin_nth by lia). rewrite NX, NY.
    destruct (Nat.eqb_spec k (argmin x)), (Nat.eqb_spec k (argmax x)); cbn [orb]; split; intros G; try discriminate; try tauto.
    + injection G as <-. auto.
    + destruct G as (_ & _ & _ & ->). reflexivity.
  - rewrite nth_overflow by (rewrite remove_length; lia). split; [discriminate|]. intros (X & _). lia.
Qed.
Lemma x_nth : forall a up cx N k, (k <= N)%nat -> nth k (map (fun t => a * ux up t + cx) (linspace2pi (S N))) 0 = a * ux up (angle (S N) k) + cx.
Proof. intros. rewrite map_lin_nth by lia. reflexivity. Qed.

Lemma ratio_side : forall b c cy, b <> 0 -> (b * (1 / c) + cy - cy) / b = / c.
Proof. intros b c cy B. transitivity (/ c * (b * / b)); [unfold Rdiv; ring|rewrite Rinv_r by auto; ring]. Qed.
(** C145: with an even number of points the two branches are drawn apart *)
Theorem C145_apart : forall a b cx cy n, 0 < a -> b <> 0 -> (6 <= n)%nat -> Nat.Even n ->
  exists xy, hyperbola (a, b) true (cx, cy) n = Ok xy /\ ~ joined (fun p => snd p - cy) xy /\
  (exists i p, drawn xy i = Some p /\ 0 < (snd p - cy) / b) /\ (exists i p, drawn xy i = Some p /\ (snd p - cy) / b < 0).
Proof.
  intros a b cx cy n A0 B0 L [m M]. destruct n as [|N]; [lia|].
  assert (R0 : forall i, (i <= N)%nat -> (4 * i <> N)%nat /\ (4 * i <> 3 * N)%nat) by (intros; lia).
  assert (C : forall i, (i <= N)%nat -> cos (angle (S N) i) <> 0) by (intros i I; apply cos_nonzero; try apply R0; lia).
  destruct (hyperbola (a, b) true (cx, cy) (S N)) as [xy| |] eqn:H;
    try (rewrite hyperbola_value in H by (lia || (intros; apply C; lia)); discriminate).
  exists xy. split; [reflexivity|].
  pose proof (fun k p => drawn_value a b true cx cy N k p ltac:(lia) C xy H) as D. cbv zeta in D.
  set (x := map (fun t => a * ux true t + cx) (linspace2pi (S N))) in *.
  assert (LX : length x = S N) by (unfold x; now rewrite map_length, lin_length).
  assert (NX : forall k, (k <= N)%nat -> nth k x 0 = a * tan (angle (S N) k) + cx) by (intros; unfold x; now rewrite x_nth).
  assert (CMP : forall i j, (i <= N)%nat -> (j <= N)%nat ->
    ((rho N i < rho N j)%Z -> nth i x 0 < nth j x 0) /\ ((rho N i <= rho N j)%Z -> nth i x 0 <= nth j x 0)).
  { intros i j I J. destruct (R0 i I), (R0 j J). destruct (tan_rho N i j) as [T1 T2]; try lia. rewrite !NX by auto.
    split; intros X; [specialize (T1 X)|specialize (T2 X)]; nra. }
  set (q := ((N + 1) / 4)%nat).
  assert (Q : (N = 4 * q + 1 \/ N = 4 * q - 1)%nat /\ (0 < q)%nat).
  { unfold q. pose proof (Nat.div_mod (N + 1) 4 ltac:(lia)) as DM. pose proof (Nat.mod_upper_bound (N + 1) 4 ltac:(lia)).
    assert (N + 1 = 2 * m)%nat by lia. lia. }
  destruct Q as [Q Q0].
  assert (EXT : exists lo hi, argmin x = lo /\ argmax x = hi /\
     ((N = 4 * q + 1 /\ hi = q /\ lo = 3 * q + 1) \/ (N = 4 * q - 1 /\ lo = q /\ hi = 3 * q - 1))%nat).
  { destruct Q as [Q|Q].
    - exists (3 * q + 1)%nat, q. split; [|split; [|left; auto]].
      + apply argmin_first; [lia| |]; intros j J; apply CMP; try lia; unfold rho;
          repeat match goal with |- context [(?u <? ?v)%nat] => destruct (Nat.ltb_spec u v) end; lia.
      + apply argmax_first; [lia| |]; intros j J; apply CMP; try lia; unfold rho;
          repeat match goal with |- context [(?u <? ?v)%nat] => destruct (Nat.ltb_spec u v) end; lia.
    - exists q, (3 * q - 1)%nat. split; [|split; [|right; auto]].
      + apply argmin_first; [lia| |]; intros j J; apply CMP; try lia; unfold rho;
          repeat match goal with |- context [(?u <? ?v)%nat] => destruct (Nat.ltb_spec u v) end; lia.
      + apply argmax_first; [lia| |]; intros j J; apply CMP; try lia; unfold rho;
          repeat match goal with |- context [(?u <? ?v)%nat] => destruct (Nat.ltb_spec u v) end; lia. }
  destruct EXT as (lo & hi & EL & EH & EV). rewrite EL, EH in D.
  assert (SIDE : forall k, (k <= N)%nat -> if (4 * k <? N)%nat then 0 < / cos (angle (S N) k)
     else if (4 * k <? 3 * N)%nat then / cos (angle (S N) k) < 0 else 0 < / cos (angle (S N) k)).
  { intros k K. destruct (R0 k K). pose proof (cos_side N k ltac:(lia) K ltac:(lia) ltac:(lia)) as S.
    destruct (4 * k <? N)%nat; [now apply Rinv_0_lt_compat|]. destruct (4 * k <? 3 * N)%nat; [now apply Rinv_lt_0_compat|now apply Rinv_0_lt_compat]. }
  split; [|split].
  - intros (k & p & p' & P & P' & J). apply D in P, P'. destruct P as (K & K1 & K2 & ->). destruct P' as (K' & K1' & K2' & ->).
    cbn [fst snd] in J. unfold uy in J.
    assert (J' : / cos (angle (S N) k) * / cos (angle (S N) (S k)) < 0).
    { assert (0 < b * b) by (destruct (Rtotal_order b 0) as [X|[X|X]]; [nra|lra|nra]).
      assert (b * b * (/ cos (angle (S N) k) * / cos (angle (S N) (S k))) < 0)
        by (eapply Rle_lt_trans; [|exact J]; right; unfold Rdiv; ring). nra. }
    pose proof (SIDE k K) as S1. pose proof (SIDE (S k) K') as S2.
    repeat match goal with S : context [(?u <? ?v)%nat] |- _ => destruct (Nat.ltb_spec u v) end; try nra; lia.
  - exists 0%nat, (a * ux true (angle (S N) 0) + cx, b * uy true (angle (S N) 0) + cy). split; [apply D; repeat split; lia|].
    pose proof (SIDE 0%nat ltac:(lia)) as SI. destruct (Nat.ltb_spec (4 * 0) N); [|lia]. unfold uy. cbn [snd].
    rewrite ratio_side by auto. auto.
  - exists (2 * q)%nat, (a * ux true (angle (S N) (2 * q)) + cx, b * uy true (angle (S N) (2 * q)) + cy).
    split; [apply D; split; [lia|]; split; [lia|]; split; [|reflexivity]; lia|].
    pose proof (SIDE (2 * q)%nat ltac:(lia)) as SI. destruct (Nat.ltb_spec (4 * (2 * q)) N); [lia|]. destruct (Nat.ltb_spec (4 * (2 * q)) (3 * N)); [|lia].
    unfold uy. cbn [snd].
    rewrite ratio_side by auto. auto.
Qed.

(** with an odd number (not 1 modulo 4, where an angle is a right one) they are joined *)
Theorem C145_odd_refuted : forall a b cx cy q, 0 < a -> b <> 0 ->
  exists xy, hyperbola (a, b) true (cx, cy) (4 * q + 3) = Ok xy /\ joined (fun p => snd p - cy) xy.
Proof.
  intros a b cx cy q A0 B0. replace (4 * q + 3)%nat with (S (4 * q + 2)) by lia. set (N := (4 * q + 2)%nat).
  assert (R0 : forall i, (i <= N)%nat -> (4 * i <> N)%nat /\ (4 * i <> 3 * N)%nat) by (unfold N; intros; lia).
  assert (C : forall i, (i <= N)%nat -> cos (angle (S N) i) <> 0) by (intros i I; apply cos_nonzero; try apply R0; unfold N in *; lia).
  destruct (hyperbola (a, b) true (cx, cy) (S N)) as [xy| |] eqn:H;
    try (rewrite hyperbola_value in H by (lia || (intros; apply C; lia)); discriminate).
  exists xy. split; [reflexivity|].
  pose proof (fun k p => drawn_value a b true cx cy N k p ltac:(unfold N; lia) C xy H) as D. cbv zeta in D.
  set (x := map (fun t => a * ux true t + cx) (linspace2pi (S N))) in *.
  assert (LX : length x = S N) by (unfold x; now rewrite map_length, lin_length).
  assert (NX : forall k, (k <= N)%nat -> nth k x 0 = a * tan (angle (S N) k) + cx) by (intros; unfold x; now rewrite x_nth).
  assert (CMP : forall i j, (i <= N)%nat -> (j <= N)%nat ->
    ((rho N i < rho N j)%Z -> nth i x 0 < nth j x 0) /\ ((rho N i <= rho N j)%Z -> nth i x 0 <= nth j x 0)).
  { intros i j I J. destruct (R0 i I), (R0 j J). destruct (tan_rho N i j) as [T1 T2]; try (unfold N in *; lia). rewrite !NX by auto.
    split; intros X; [specialize (T1 X)|specialize (T2 X)]; nra. }
  assert (EH : argmax x = q).
  { apply argmax_first; [rewrite LX; unfold N; lia| |]; intros j J; rewrite ?LX in J; apply CMP; try (unfold N in *; lia); unfold rho, N in *;
      repeat match goal with |- context [(?u <? ?v)%nat] => destruct (Nat.ltb_spec u v) end; lia. }
  assert (EL : (q = 0 /\ argmin x = 0 \/ q <> 0 /\ argmin x = q + 1)%nat).
  { destruct (Nat.eq_dec q 0) as [Q0|Q0]; [left|right]; (split; [auto|]);
      (apply argmin_first; [rewrite LX; unfold N; lia| |]; intros j J; rewrite ?LX in J; apply CMP; try (unfold N in *; lia); unfold rho, N in *;
      repeat match goal with |- context [(?u <? ?v)%nat] => destruct (Nat.ltb_spec u v) end; lia). }
  exists (3 * q + 1)%nat. eexists. eexists.
  split; [apply D; split; [unfold N; lia|]; split; [lia|]; split; [lia|reflexivity]|].
  split; [apply D; split; [unfold N; lia|]; split; [|split; [|reflexivity]]; lia|].
  cbn [snd]. unfold uy.
  pose proof (cos_side N (3 * q + 1) ltac:(unfold N; lia) ltac:(unfold N; lia) ltac:(unfold N; lia) ltac:(unfold N; lia)) as S1.
  pose proof (cos_side N (S (3 * q + 1)) ltac:(unfold N; lia) ltac:(unfold N; lia) ltac:(unfold N; lia) ltac:(unfold N; lia)) as S2.
  repeat match goal with K : context [(?u <? ?v)%nat] |- _ => destruct (Nat.ltb_spec u v) end; try (unfold N in *; lia).
  set (u := cos (angle (S N) (3 * q + 1))) in *. set (v := cos (angle (S N) (S (3 * q + 1)))) in *.
  apply Rinv_lt_0_compat in S1. apply Rinv_0_lt_compat in S2.
  assert (0 < b * b) by (destruct (Rtotal_order b 0) as [X|[X|X]]; [nra|lra|nra]).
  replace ((b * (1 / u) + cy - cy) * (b * (1 / v) + cy - cy)) with (b * b * (/ u * / v)) by (unfold Rdiv; ring).
  assert (/ u * / v < 0) by nra. nra.
Qed.

(** opening sideways the branches are always joined *)
Lemma cos_abs : forall x, cos (Rabs x) = cos x.
Proof. intros. unfold Rabs. destruct (Rcase_abs x); [apply cos_neg|reflexivity]. Qed.
Lemma cos_rho : forall N i j, (0 < N)%nat -> (i <= N)%nat -> (j <= N)%nat -> (4 * i <> N)%nat -> (4 * i <> 3 * N)%nat ->
  (4 * j <> N)%nat -> (4 * j <> 3 * N)%nat -> (Z.abs (rho N i) <= Z.abs (rho N j))%Z ->
  / cos (IZR (rho N i) * (PI / INR N)) <= / cos (IZR (rho N j) * (PI / INR N)) /\
  ((Z.abs (rho N i) < Z.abs (rho N j))%Z -> / cos (IZR (rho N i) * (PI / INR N)) < / cos (IZR (rho N j) * (PI / INR N))).
Proof.
  intros N i j N0 I J A B A' B' H. destruct (reduced N i N0 I A B) as (L & _ & _). destruct (reduced N j N0 J A' B') as (L' & _ & _).
  assert (U : 0 < PI / INR N) by (apply Rdiv_lt_0_compat; [apply PI_RGT_0|now apply lt_0_INR]). pose proof PI_RGT_0 as PP.
  set (s := IZR (rho N i) * (PI / INR N)) in *. set (s' := IZR (rho N j) * (PI / INR N)) in *.
  assert (C1 : 0 < cos s) by (apply cos_gt_0; lra). assert (C2 : 0 < cos s') by (apply cos_gt_0; lra).
  assert (E : Rabs s = IZR (Z.abs (rho N i)) * (PI / INR N)) by (unfold s; rewrite Rabs_mult, abs_IZR, (Rabs_right (PI / INR N)) by lra; reflexivity).
  assert (E' : Rabs s' = IZR (Z.abs (rho N j)) * (PI / INR N)) by (unfold s'; rewrite Rabs_mult, abs_IZR, (Rabs_right (PI / INR N)) by lra; reflexivity).
  assert (M : Rabs s < PI /\ Rabs s' < PI /\ 0 <= Rabs s /\ 0 <= Rabs s').
  { split; [apply Rabs_def1; lra|]. split; [apply Rabs_def1; lra|]. split; apply Rabs_pos. }
  split.
  - apply Rinv_le_contravar; [auto|]. rewrite <- (cos_abs s), <- (cos_abs s'). apply cos_decr_1; try lra.
    rewrite E, E'. apply Rmult_le_compat_r; [lra|]. now apply IZR_le.
  - intros K. apply Rinv_lt_contravar; [nra|]. rewrite <- (cos_abs s), <- (cos_abs s'). apply cos_decreasing_1; try lra.
    rewrite E, E'. apply Rmult_lt_compat_r; [lra|]. now apply IZR_lt.
Qed.
Theorem C145_sideways_refuted : forall a b cx cy n, 0 < a -> b <> 0 -> (4 <= n)%nat -> Nat.Even n ->
  exists xy, hyperbola (a, b) false (cx, cy) n = Ok xy /\ joined (fun p => fst p - cx) xy.
Proof.
  intros a b cx cy n A0 B0 L [m M]. destruct n as [|N]; [lia|].
  assert (R0 : forall i, (i <= N)%nat -> (4 * i <> N)%nat /\ (4 * i <> 3 * N)%nat) by (intros; lia).
  assert (C : forall i, (i <= N)%nat -> cos (angle (S N) i) <> 0) by (intros i I; apply cos_nonzero; try apply R0; lia).
  destruct (hyperbola (a, b) false (cx, cy) (S N)) as [xy| |] eqn:H;
    try (rewrite hyperbola_value in H by (lia || (intros; apply C; lia)); discriminate).
  exists xy. split; [reflexivity|].
  pose proof (fun k p => drawn_value a b false cx cy N k p ltac:(lia) C xy H) as D. cbv zeta in D.
  set (x := map (fun t => a * ux false t + cx) (linspace2pi (S N))) in *.
  assert (LX : length x = S N) by (unfold x; now rewrite map_length, lin_length).
  set (w := fun k => / cos (IZR (rho N k) * (PI / INR N))).
  assert (WP : forall k, (k <= N)%nat -> 0 < w k).
  { intros k K. destruct (R0 k K). destruct (reduced N k ltac:(lia) K ltac:(lia) ltac:(lia)) as (Q & _). apply Rinv_0_lt_compat. apply cos_gt_0; lra. }
  assert (NX : forall k, (k <= N)%nat -> nth k x 0 = a * ((if (4 * k <? N)%nat then 1 else if (4 * k <? 3 * N)%nat then -1 else 1) * w k) + cx).
  { intros k K. unfold x. rewrite x_nth by auto. unfold ux. destruct (R0 k K).
    destruct (reduced N k ltac:(lia) K ltac:(lia) ltac:(lia)) as (_ & _ & ->). unfold w. f_equal. f_equal.
    destruct (4 * k <? N)%nat; [|destruct (4 * k <? 3 * N)%nat]; unfold Rdiv; rewrite Rmult_1_l, ?Rmult_1_l; try reflexivity.
    replace (-1 * cos (IZR (rho N k) * (PI * / INR N))) with (- cos (IZR (rho N k) * (PI * / INR N))) by ring. rewrite Rinv_opp. ring. }
  assert (CMP : forall i j, (i <= N)%nat -> (j <= N)%nat -> (Z.abs (rho N i) <= Z.abs (rho N j))%Z -> w i <= w j /\ ((Z.abs (rho N i) < Z.abs (rho N j))%Z -> w i < w j)).
  { intros i j I J Hij. destruct (R0 i I), (R0 j J). apply cos_rho; auto; lia. }
  set (q := (N / 4)%nat).
  assert (Q : (4 * q < N)%nat /\ (N < 4 * q + 4)%nat).
  { unfold q. pose proof (Nat.div_mod N 4 ltac:(lia)) as DM. pose proof (Nat.mod_upper_bound N 4 ltac:(lia)). lia. }
  assert (EH : argmax x = q).
  { apply argmax_first; [lia| |]; intros j J; rewrite !NX by lia.
    - destruct (Nat.ltb_spec (4 * j) N); [|lia]. destruct (Nat.ltb_spec (4 * q) N); [|lia].
      destruct (CMP j q ltac:(lia) ltac:(lia)) as [_ K]; [|assert (w j < w q); [apply K|nra]]; unfold rho;
      repeat match goal with |- context [(?u <? ?v)%nat] => destruct (Nat.ltb_spec u v) end; lia.
    - destruct (Nat.ltb_spec (4 * q) N); [|lia]. pose proof (WP q ltac:(lia)). pose proof (WP j ltac:(lia)).
      assert (AUX : w j <= w q \/ (N < 4 * j < 3 * N)%nat).
      { destruct (lt_dec N (4 * j)); [destruct (lt_dec (4 * j) (3 * N)); [right; lia|]|]; left;
        (apply CMP; [lia|lia|]); unfold rho; repeat match goal with |- context [(?u <? ?v)%nat] => destruct (Nat.ltb_spec u v) end; lia. }
      destruct (Nat.ltb_spec (4 * j) N); [destruct AUX; [nra|lia]|]. destruct (Nat.ltb_spec (4 * j) (3 * N)); [nra|]. destruct AUX; [nra|lia]. }
  assert (EL : argmin x = (q + 1)%nat).
  { apply argmin_first; [lia| |]; intros j J; rewrite !NX by lia.
    - destruct (Nat.ltb_spec (4 * j) N); [|lia]. destruct (Nat.ltb_spec (4 * (q + 1)) N); [lia|]. destruct (Nat.ltb_spec (4 * (q + 1)) (3 * N)); [|lia].
      pose proof (WP (q + 1)%nat ltac:(lia)). pose proof (WP j ltac:(lia)). nra.
    - destruct (Nat.ltb_spec (4 * (q + 1)) N); [lia|]. destruct (Nat.ltb_spec (4 * (q + 1)) (3 * N)); [|lia].
      pose proof (WP (q + 1)%nat ltac:(lia)). pose proof (WP j ltac:(lia)).
      destruct (Nat.ltb_spec (4 * j) N); [nra|]. destruct (Nat.ltb_spec (4 * j) (3 * N)); [|nra].
      assert (w j <= w (q + 1)%nat); [|nra]. apply CMP; [lia|lia|].
      unfold rho; repeat match goal with |- context [(?u <? ?v)%nat] => destruct (Nat.ltb_spec u v) end; lia. }
  exists (N - q - 1)%nat. eexists. eexists.
  split; [apply D; split; [lia|]; split; [lia|]; split; [lia|reflexivity]|].
  split; [apply D; split; [lia|]; split; [lia|]; split; [lia|reflexivity]|].
  cbn [fst]. pose proof (NX (N - q - 1)%nat ltac:(lia)) as X1. pose proof (NX (S (N - q - 1)) ltac:(lia)) as X2.
  unfold x in X1, X2. rewrite x_nth in X1, X2 by lia. rewrite X1, X2.
  pose proof (WP (N - q - 1)%nat ltac:(lia)). pose proof (WP (S (N - q - 1)) ltac:(lia)).
  repeat match goal with |- context [(?u <? ?v)%nat] => destruct (Nat.ltb_spec u v) end; try lia.
  set (u := w (N - q - 1)%nat) in *. set (v := w (S (N - q - 1))) in *.
  replace ((a * (-1 * u) + cx - cx) * (a * (1 * v) + cx - cx)) with (- (a * a * (u * v))) by ring.
  assert (0 < a * a * (u * v)); [|lra]. apply Rmult_lt_0_compat; nra.
Qed.

Print Assumptions C144_hyperbola.
Print Assumptions C144_ellipse.
Print Assumptions C145_apart.
Print Assumptions C145_odd_refuted.
Print Assumptions C145_sideways_refuted.
