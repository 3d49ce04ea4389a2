(** Tangents, foci and window of display/parametric.py: C146, C147. *)
From Coq Require Import Reals Lra Lia List Arith Bool Psatz.
From Verif Require Import RVec Trig MPca MAxes MStereo MParam SpecParam PParam.
Import ListNotations.
Open Scope R_scope.

Lemma hyperbola_even : forall a b up c n, (2 <= n)%nat -> Nat.Even n -> exists xy, hyperbola (a, b) up c n = Ok xy.
Proof.
  intros a b up [cx cy] n L [m M]. destruct n as [|N]; [lia|].
  rewrite hyperbola_value; [eexists; reflexivity|lia|]. intros i I. apply cos_nonzero; lia.
Qed.
Lemma plot_ok : forall a b w fo, a <> 0 -> b <> 0 -> exists g, plot_conjugate_conics (a, b) w fo false = Ok g /\
  exists A B c, inverse_ellipse (a, b) 1 = Some ((A, B), c) /\ A = b * b / a /\ B = b /\ c = b * sqrt 2 /\
  cj_ellipse g = param_ellipse (A, B) (0, c) 500 /\ cj_variance g = param_ellipse (a, b) (0, 0) 500 /\
  cj_tangents g = [((-500, b / a * -500), (500, b / a * 500)); ((-500, - (b / a * -500)), (500, - (b / a * 500)))] /\
  cj_normal_tangents g = [((b / a * -500, -500), (b / a * 500, 500)); ((b / a * -500, - -500), (b / a * 500, - 500))] /\
  hyperbola (a, b) true (0, 0) 500 = Ok (cj_hyperbola g) /\
  (fo = true -> exists e, focal A B = Some e /\ cj_foci g = Some ((sqrt (a * a + b * b), - sqrt (a * a + b * b)), (c + e, c - e))) /\
  (w = None -> cj_limits g = let k := if Rlt_dec (1 / 2 * a) b then 6 else 4 in
     (sqrt (a * a + b * b) * k / 2, sqrt (a * a + b * b) * k / 2 * (6 / 10))).
Proof.
  intros a b w fo A0 B0. unfold plot_conjugate_conics. destruct (hyperbola_even a b true (0, 0) 500) as [xy H]; [lia|now exists 250%nat|].
  rewrite H. cbn [rbind]. unfold inverse_ellipse. cbn [fst snd].
  destruct (Req_EM_T a 0); [contradiction|]. destruct (Req_EM_T b 0); [contradiction|].
  eexists. split; [reflexivity|]. exists (b * b / a), b, (b * sqrt 2). cbn [cj_ellipse cj_variance cj_tangents cj_normal_tangents cj_hyperbola cj_foci cj_limits].
  replace (1 / a * (b * b) * 1) with (b * b / a) by (field; auto). replace (1 / b * (b * b) * 1) with b by (field; auto).
  repeat (split; [reflexivity|]). split.
  - intros ->. unfold focal, fsqrt. cbn [fst snd]. set (A := b * b / a).
    destruct (Rlt_dec (- Rmin (A * A) (b * b) + Rmax (A * A) (b * b)) 0) as [X|X].
    + pose proof (Rmin_l (A * A) (b * b)). pose proof (Rmax_l (A * A) (b * b)). lra.
    + destruct (Rlt_dec (a * a + b * b) 0); [nra|]. eexists. split; reflexivity.
  - intros ->. reflexivity.
Qed.

(** a line [x = u y] through the origin touches an ellipse centred at (0, c) exactly when ... *)
Lemma touch_iff : forall A B c u (line : pt -> Prop), A <> 0 -> B <> 0 -> (forall z, line z <-> fst z = u * snd z) ->
  (touches (on_ellipse A B (0, c)) line <-> u * u * (c * c - B * B) = A * A).
Proof.
  intros A B c u line A0 B0 L. set (P := u * u * (B * B) + A * A).
  assert (PA : 0 < A * A) by (destruct (Rtotal_order A 0) as [X|[X|X]]; [nra|lra|nra]).
  assert (PB : 0 < B * B) by (destruct (Rtotal_order B 0) as [X|[X|X]]; [nra|lra|nra]).
  assert (PP : 0 < P). { unfold P. assert (0 <= u * u) by nra. assert (0 <= u * u * (B * B)) by (apply Rmult_le_pos; lra). lra. }
  assert (E : forall y, on_ellipse A B (0, c) (u * y, y) <-> P * (y * y) - 2 * c * (A * A) * y + A * A * (c * c - B * B) = 0).
  { intros y. unfold on_ellipse. cbn [fst snd].
    assert (I : (((u * y - 0) / A) * ((u * y - 0) / A) + ((y - c) / B) * ((y - c) / B) - 1) * (A * A * (B * B)) =
       P * (y * y) - 2 * c * (A * A) * y + A * A * (c * c - B * B)) by (unfold P; field; auto).
    split; intros H.
    - rewrite <- I, H. ring.
    - rewrite <- I in H. apply Rmult_integral in H. destruct H as [H|H]; [lra|].
      assert (0 < A * A * (B * B)) by (apply Rmult_lt_0_compat; auto). lra. }
  set (y0 := c * (A * A) / P).
  assert (SQ : forall y, P * (y * y) - 2 * c * (A * A) * y + A * A * (c * c - B * B) =
     P * ((y - y0) * (y - y0)) + A * A * (B * B) / P * (u * u * (c * c - B * B) - A * A)).
  { intros y. unfold y0. unfold P. field. fold P. lra. }
  assert (K : 0 < A * A * (B * B) / P) by (apply Rdiv_lt_0_compat; [apply Rmult_lt_0_compat; auto|auto]).
  split.
  - intros ([zx zy] & Z1 & Z2 & Z3). apply L in Z2. cbn [fst snd] in Z2. subst zx. apply E in Z1. rewrite SQ in Z1.
    assert (Y : on_ellipse A B (0, c) (u * (2 * y0 - zy), 2 * y0 - zy)).
    { apply E. rewrite SQ, <- Z1. ring. }
    specialize (Z3 _ Y ltac:(apply L; reflexivity)). injection Z3 as _ Z3. assert (zy = y0) by lra. subst zy.
    replace ((y0 - y0) * (y0 - y0)) with 0 in Z1 by ring. rewrite Rmult_0_r, Rplus_0_l in Z1. apply Rmult_integral in Z1. destruct Z1; lra.
  - intros H. exists (u * y0, y0). split; [|split].
    + apply E. rewrite SQ, H. ring.
    + now apply L.
    + intros [wx wy] W1 W2. apply L in W2. cbn [fst snd] in W2. subst wx. apply E in W1. rewrite SQ, H in W1.
      replace (A * A * (B * B) / P * (A * A - A * A)) with 0 in W1 by ring. rewrite Rplus_0_r in W1.
      apply Rmult_integral in W1. destruct W1 as [W1|W1]; [lra|]. apply Rmult_integral in W1. assert (wy = y0) by (destruct W1; lra). now subst.
Qed.
Lemma line_up : forall k z, on_line (k * -500, -500) (k * 500, 500) z <-> fst z = k * snd z.
Proof. intros k [x y]. unfold on_line. cbn [fst snd]. split; intros; lra. Qed.
Lemma line_down : forall k z, on_line (k * -500, - -500) (k * 500, - 500) z <-> fst z = (- k) * snd z.
Proof. intros k [x y]. unfold on_line. cbn [fst snd]. split; intros; lra. Qed.

(** C146: the lines drawn for the normals are perpendicular to the asymptotes of the
    hyperbola and touch the ellipse of normals *)
Theorem C146_tangent : forall a b w fo g, a <> 0 -> b <> 0 -> plot_conjugate_conics (a, b) w fo false = Ok g ->
  exists A B c, cj_ellipse g = param_ellipse (A, B) (0, c) 500 /\ A <> 0 /\ B <> 0 /\
  (forall p q, In (p, q) (cj_normal_tangents g) -> touches (on_ellipse A B (0, c)) (on_line p q)) /\
  (forall p q, In (p, q) (cj_normal_tangents g) -> exists p' q', In (p', q') (cj_tangents g) /\
     (fst q - fst p) * (fst q' - fst p') + (snd q - snd p) * (snd q' - snd p') = 0).
Proof.
  intros a b w fo g A0 B0 H. destruct (plot_ok a b w fo A0 B0) as (g' & G & A & B & c & EI & EA & EB & Ec & ELL & _ & T & NT & _).
  rewrite H in G. injection G as <-. exists A, B, c. split; [auto|].
  assert (NA : A <> 0). { rewrite EA. apply Rmult_integral_contrapositive_currified; [nra|now apply Rinv_neq_0_compat]. }
  split; [auto|]. split; [congruence|]. rewrite T, NT.
  assert (V : b / a * (b / a) * (c * c - B * B) = A * A).
  { rewrite EA, EB, Ec. assert (S : sqrt 2 * sqrt 2 = 2) by (apply sqrt_def; lra).
    replace (b * sqrt 2 * (b * sqrt 2)) with (b * b * (sqrt 2 * sqrt 2)) by ring. rewrite S. field. auto. }
  split; intros p q [I|[I|[]]]; injection I as <- <-.
  - apply (touch_iff A B c (b / a)); [auto|congruence|apply line_up|auto].
  - apply (touch_iff A B c (- (b / a))); [auto|congruence|apply line_down|]. rewrite <- V. ring.
  - eexists. eexists. split; [right; left; reflexivity|]. cbn [fst snd]. field. auto.
  - eexists. eexists. split; [left; reflexivity|]. cbn [fst snd]. field. auto.
Qed.
(** the lines drawn for the hyperbola are its asymptotes *)
Theorem C146_asymptotes : forall a b w fo g p q z, 0 < a -> 0 < b -> plot_conjugate_conics (a, b) w fo false = Ok g ->
  In (p, q) (cj_tangents g) -> on_hyperbola a b (0, 0) z -> ~ on_line p q z /\
  0 < Rabs (snd z) - b / a * Rabs (fst z) /\ (Rabs (snd z) - b / a * Rabs (fst z)) * Rabs (fst z) <= a * b.
Proof.
  intros a b w fo g p q [x y] A0 B0 H I Z. destruct (plot_ok a b w fo ltac:(lra) ltac:(lra)) as (g' & G & A & B & c & EI & EA & EB & Ec & ELL & _ & T & _).
  rewrite H in G. injection G as <-. rewrite T in I. unfold on_hyperbola in Z. cbn [fst snd] in Z |- *.
  set (k := b / a) in *. assert (K : 0 < k) by (apply Rdiv_lt_0_compat; auto).
  assert (E : y * y = k * k * (x * x) + b * b).
  { apply (Rmult_eq_reg_r (/ (b * b))); [|apply Rinv_neq_0_compat; nra].
    transitivity ((y - 0) / b * ((y - 0) / b)); [field; lra|].
    replace ((y - 0) / b * ((y - 0) / b)) with (1 + (x - 0) / a * ((x - 0) / a)) by lra. unfold k. field. lra. }
  assert (X2 : Rabs x * Rabs x = x * x) by (rewrite <- Rabs_mult; apply Rabs_right; nra).
  assert (Y2 : Rabs y * Rabs y = y * y) by (rewrite <- Rabs_mult; apply Rabs_right; nra).
  pose proof (Rabs_pos x) as PX. pose proof (Rabs_pos y) as PY. set (u := Rabs x) in *. set (v := Rabs y) in *.
  assert (D : (v - k * u) * (v + k * u) = b * b) by (rewrite <- X2, <- Y2 in E; lra).
  assert (KU : 0 <= k * u) by (apply Rmult_le_pos; lra).
  assert (S : 0 < v - k * u).
  { destruct (Rle_or_lt (v - k * u) 0) as [W|W]; [|auto]. assert (0 <= v + k * u) by lra. assert ((v - k * u) * (v + k * u) <= 0) by nra. nra. }
  split; [|split; [auto|]].
  - intros L. assert (y * y = k * k * (x * x)); [|nra].
    destruct I as [I|[I|[]]]; injection I as <- <-; unfold on_line in L; cbn [fst snd] in L.
    + assert (y = k * x) by lra. subst y. ring.
    + assert (y = - (k * x)) by lra. subst y. ring.
  - assert (M : (v - k * u) * (k * u) <= b * b).
    { rewrite <- D. apply Rmult_le_compat_l; lra. }
    apply (Rmult_le_reg_l k); [auto|]. replace (k * (a * b)) with (b * b) by (unfold k; field; lra).
    replace (k * ((v - k * u) * u)) with ((v - k * u) * (k * u)) by ring. auto.
Qed.
(** of the three ellipses in the file the inverse one touches for every scale, the
    reverse one only for scales 1 and -1, and the squished one never *)
Theorem C146_choices : forall a b s, a <> 0 -> b <> 0 -> s <> 0 ->
  let normals := on_line (b / a * -500, -500) (b / a * 500, 500) in
  (exists A B c, inverse_ellipse (a, b) s = Some ((A, B), c) /\ touches (on_ellipse A B (0, c)) normals) /\
  (forall A B c, reverse_ellipse (a, b) s = ((A, B), c) -> (touches (on_ellipse A B (0, c)) normals <-> s = 1 \/ s = -1)) /\
  (exists A B c, squished_ellipse (a, b) = Some ((A, B), c) /\ ~ touches (on_ellipse A B (0, c)) normals).
Proof.
  intros a b s A0 B0 S0 normals.
  assert (S2 : sqrt 2 * sqrt 2 = 2) by (apply sqrt_def; lra).
  assert (BB : 0 < b * b) by (destruct (Rtotal_order b 0) as [X|[X|X]]; [nra|lra|nra]).
  assert (AA : 0 < a * a) by (destruct (Rtotal_order a 0) as [X|[X|X]]; [nra|lra|nra]).
  assert (SS : 0 < s * s) by (destruct (Rtotal_order s 0) as [X|[X|X]]; [nra|lra|nra]).
  split; [|split].
  - unfold inverse_ellipse. cbn [fst snd]. destruct (Req_EM_T a 0); [contradiction|]. destruct (Req_EM_T b 0); [contradiction|].
    eexists. eexists. eexists. split; [reflexivity|]. apply (touch_iff _ _ _ (b / a)); [| |apply line_up|].
    + replace (1 / a * (b * b) * s) with (b * b * s / a) by (field; auto). apply Rmult_integral_contrapositive_currified; [|now apply Rinv_neq_0_compat].
      apply Rmult_integral_contrapositive_currified; [lra|auto].
    + replace (1 / b * (b * b) * s) with (b * s) by (field; auto). now apply Rmult_integral_contrapositive_currified.
    + replace (1 / b * (b * b) * s) with (b * s) by (field; auto).
      replace (b * s * sqrt 2 * (b * s * sqrt 2)) with (b * s * (b * s) * (sqrt 2 * sqrt 2)) by ring. rewrite S2. field. auto.
  - unfold reverse_ellipse. cbn [fst snd]. intros A B c E. injection E as <- <- <-.
    rewrite (touch_iff _ _ _ (b / a)); [| | |apply line_up]; try now apply Rmult_integral_contrapositive_currified.
    replace (a * s * sqrt 2 * s * (a * s * sqrt 2 * s)) with (a * a * (s * s) * (s * s) * (sqrt 2 * sqrt 2)) by ring. rewrite S2.
    assert (ID : b / a * (b / a) * (a * a * (s * s) * (s * s) * 2 - a * s * (a * s)) - b * s * (b * s) = 2 * (b * b) * (s * s) * (s * s - 1)) by (field; auto).
    split.
    + intros H. rewrite H in ID. replace (b * s * (b * s) - b * s * (b * s)) with 0 in ID by ring.
      symmetry in ID. apply Rmult_integral in ID. destruct ID as [ID|ID].
      * assert (0 < 2 * (b * b) * (s * s)) by (apply Rmult_lt_0_compat; lra). lra.
      * assert (F : (s - 1) * (s + 1) = 0) by lra. apply Rmult_integral in F. destruct F; [left|right]; lra.
    + intros H. assert (Q : s * s = 1) by (destruct H; subst s; lra). rewrite Q in ID. replace (2 * (b * b) * 1 * (1 - 1)) with 0 in ID by ring. rewrite Q. lra.
  - unfold squished_ellipse. cbn [fst snd]. destruct (Req_EM_T a 0); [contradiction|].
    eexists. eexists. eexists. split; [reflexivity|].
    assert (S3 : sqrt 3 * sqrt 3 = 3) by (apply sqrt_def; lra). pose proof (sqrt_pos 3) as P3.
    assert (S4 : sqrt (sqrt 3 / 2) * sqrt (sqrt 3 / 2) = sqrt 3 / 2) by (apply sqrt_def; lra).
    assert (P3' : 0 < sqrt 3) by (apply sqrt_lt_R0; lra).
    assert (P4 : 0 < sqrt (sqrt 3 / 2)) by (apply sqrt_lt_R0; lra).
    rewrite (touch_iff _ _ _ (b / a)); [| |auto|apply line_up].
    + intros H.
      assert (E : b / a * (b / a) * (2 * b * (2 * b) - b * b) = 3 * (b * b / a * (b * b / a))) by (field; auto). rewrite E in H.
      replace (2 * sqrt (sqrt 3 / 2) * (b * b) / a * (2 * sqrt (sqrt 3 / 2) * (b * b) / a)) with
        (4 * (sqrt (sqrt 3 / 2) * sqrt (sqrt 3 / 2)) * (b * b / a * (b * b / a))) in H by (field; auto). rewrite S4 in H.
      assert (0 < b * b / a * (b * b / a)). { replace (b * b / a * (b * b / a)) with (b * b * (b * b) / (a * a)) by (field; auto). apply Rdiv_lt_0_compat; [|auto]. now apply Rmult_lt_0_compat. }
      assert (Z : 3 - 4 * (sqrt 3 / 2) = 0) by (apply (Rmult_eq_reg_r (b * b / a * (b * b / a))); lra).
      assert (F : sqrt 3 = 3 / 2) by lra. rewrite F in S3. lra.
    + apply Rmult_integral_contrapositive_currified; [|now apply Rinv_neq_0_compat]. apply Rmult_integral_contrapositive_currified; [lra|lra].
Qed.

(** * Foci *)
Lemma abs_le_inv : forall x k, Rabs x <= k -> - k <= x <= k.
Proof. intros x k H. unfold Rabs in H. destruct (Rcase_abs x); lra. Qed.
Lemma abs_sq : forall x, Rabs x * Rabs x = x * x.
Proof. intros. rewrite <- Rabs_mult. apply Rabs_right. apply Rle_ge, Rle_0_sqr. Qed.
Lemma dist_sqrt : forall p q k, 0 <= k -> (fst p - fst q) * (fst p - fst q) + (snd p - snd q) * (snd p - snd q) = k * k -> dist p q = k.
Proof. intros p q k K H. unfold dist. rewrite H. now apply sqrt_square. Qed.
(** C147: the points marked on the hyperbola are its foci *)
Theorem C147_hyperbola_foci : forall a b w g h1 h2 e1 e2 z, a <> 0 -> b <> 0 -> plot_conjugate_conics (a, b) w true false = Ok g ->
  cj_foci g = Some ((h1, h2), (e1, e2)) -> on_hyperbola a b (0, 0) z -> Rabs (dist z (0, h1) - dist z (0, h2)) = 2 * Rabs b.
Proof.
  intros a b w g h1 h2 e1 e2 [x y] A0 B0 H F Z. destruct (plot_ok a b w true A0 B0) as (g' & G & A & B & c & EI & EA & EB & Ec & ELL & _ & T & NT & HH & FO & _).
  rewrite H in G. injection G as <-. destruct (FO eq_refl) as (e & _ & F'). rewrite F in F'. injection F' as -> -> _ _.
  set (h := sqrt (a * a + b * b)). assert (H2 : h * h = a * a + b * b) by (apply sqrt_def; nra). pose proof (sqrt_pos (a * a + b * b)) as HP. fold h in HP.
  unfold on_hyperbola in Z. cbn [fst snd] in Z.
  assert (BB : 0 < b * b) by (destruct (Rtotal_order b 0) as [X|[X|X]]; [nra|lra|nra]).
  assert (AA : 0 < a * a) by (destruct (Rtotal_order a 0) as [X|[X|X]]; [nra|lra|nra]).
  assert (X2 : x * x = a * a * (y * y / (b * b) - 1)).
  { transitivity (a * a * ((x - 0) / a * ((x - 0) / a))); [field; auto|].
    replace ((x - 0) / a * ((x - 0) / a)) with ((y - 0) / b * ((y - 0) / b) - 1) by lra. field. auto. }
  (* distances are |h y / b - b| and |h y / b + b| *)
  set (t := h * y / b). assert (T2 : t * t = (a * a + b * b) * (y * y / (b * b))) by (unfold t; rewrite <- H2; field; auto).
  assert (TY : t * b = h * y) by (unfold t; field; auto).
  assert (Y1 : b * b <= y * y).
  { assert (K : 0 <= y * y / (b * b) - 1) by (apply (Rmult_le_reg_l (a * a)); [auto|]; rewrite Rmult_0_r, <- X2; nra).
    replace (y * y) with (y * y / (b * b) * (b * b)) by (field; auto). nra. }
  assert (T1 : b * b <= t * t).
  { rewrite T2. replace ((a * a + b * b) * (y * y / (b * b))) with (a * a * (y * y / (b * b)) + y * y) by (field; auto).
    assert (0 <= a * a * (y * y / (b * b))); [|lra]. apply Rmult_le_pos; [lra|]. apply Rmult_le_pos; [nra|]. left. now apply Rinv_0_lt_compat. }
  assert (D1 : dist (x, y) (0, h) = Rabs (t - b)).
  { apply dist_sqrt; [apply Rabs_pos|]. cbn [fst snd]. rewrite abs_sq.
    replace ((t - b) * (t - b)) with (t * t - 2 * (t * b) + b * b) by ring. rewrite TY, T2.
    replace ((x - 0) * (x - 0)) with (x * x) by ring. rewrite X2. replace ((y - h) * (y - h)) with (y * y - 2 * (h * y) + h * h) by ring. rewrite H2. field. auto. }
  assert (D2 : dist (x, y) (0, - h) = Rabs (t + b)).
  { apply dist_sqrt; [apply Rabs_pos|]. cbn [fst snd]. rewrite abs_sq.
    replace ((t + b) * (t + b)) with (t * t + 2 * (t * b) + b * b) by ring. rewrite TY, T2.
    replace ((x - 0) * (x - 0)) with (x * x) by ring. rewrite X2. replace ((y - - h) * (y - - h)) with (y * y + 2 * (h * y) + h * h) by ring. rewrite H2. field. auto. }
  rewrite D1, D2. clear - T1.
  assert (Q : Rabs b <= Rabs t). { apply Rsqr_le_abs_0. exact T1. }
  unfold Rabs in *. repeat match goal with |- context [Rcase_abs ?u] => destruct (Rcase_abs u) | _ : context [Rcase_abs ?u] |- _ => destruct (Rcase_abs u) end; lra.
Qed.
(** those of the ellipse are its foci exactly when b is not greater than a *)
Theorem C147_ellipse_foci : forall a b w g h1 h2 e1 e2, 0 < a -> 0 < b -> plot_conjugate_conics (a, b) w true false = Ok g ->
  cj_foci g = Some ((h1, h2), (e1, e2)) ->
  exists A B c, cj_ellipse g = param_ellipse (A, B) (0, c) 500 /\
  ((exists k, forall z, on_ellipse A B (0, c) z -> dist z (0, e1) + dist z (0, e2) = k) <-> b <= a).
Proof.
  intros a b w g h1 h2 e1 e2 A0 B0 H F. destruct (plot_ok a b w true ltac:(lra) ltac:(lra)) as (g' & G & A & B & c & EI & EA & EB & Ec & ELL & _ & T & NT & HH & FO & _).
  rewrite H in G. injection G as <-. destruct (FO eq_refl) as (e & FE & F'). rewrite F in F'. injection F' as _ _ -> ->.
  exists A, B, c. split; [auto|].
  assert (AP : 0 < A) by (rewrite EA; apply Rdiv_lt_0_compat; nra). assert (BP : 0 < B) by lra.
  assert (AB : A <= B <-> b <= a).
  { rewrite EA, EB. split; intros X.
    - apply (Rmult_le_compat_r a) in X; [|lra]. replace (b * b / a * a) with (b * b) in X by (field; lra). nra.
    - apply (Rmult_le_reg_r a); [auto|]. replace (b * b / a * a) with (b * b) by (field; lra). nra. }
  rewrite <- AB. unfold focal, fsqrt in FE. destruct (Rlt_dec _ 0); [discriminate|]. injection FE as FE.
  split.
  - intros [k K]. destruct (Rle_or_lt A B) as [|L]; [auto|exfalso].
    assert (LL : B * B < A * A) by nra. rewrite Rmin_right, Rmax_left in FE by lra.
    assert (E2 : e * e = A * A - B * B) by (rewrite <- FE, sqrt_def; lra). assert (EP : 0 <= e) by (rewrite <- FE; apply sqrt_pos).
    assert (K1 := K (0, c + B) ltac:(unfold on_ellipse; cbn [fst snd]; field; lra)).
    assert (K2 := K (A, c) ltac:(unfold on_ellipse; cbn [fst snd]; field; lra)).
    rewrite (dist_sqrt (0, c + B) (0, c + e) (Rabs (B - e))) in K1; [|apply Rabs_pos|rewrite abs_sq; cbn [fst snd]; ring].
    rewrite (dist_sqrt (0, c + B) (0, c - e) (B + e)) in K1; [|lra|cbn [fst snd]; ring].
    set (d := sqrt (A * A + e * e)). assert (D2 : d * d = A * A + e * e) by (apply sqrt_def; nra). assert (DP : 0 <= d) by apply sqrt_pos.
    rewrite (dist_sqrt (A, c) (0, c + e) d) in K2; [|auto|rewrite D2; cbn [fst snd]; ring].
    rewrite (dist_sqrt (A, c) (0, c - e) d) in K2; [|auto|rewrite D2; cbn [fst snd]; ring].
    assert (B < d) by nra. assert (e < d) by nra.
    unfold Rabs in K1. destruct (Rcase_abs (B - e)); lra.
  - intros L. assert (LL : A * A <= B * B) by nra. rewrite Rmin_left, Rmax_right in FE by lra.
    assert (E2 : e * e = B * B - A * A) by (rewrite <- FE, sqrt_def; lra). assert (EP : 0 <= e) by (rewrite <- FE; apply sqrt_pos).
    exists (2 * B). intros [x y] Z. unfold on_ellipse in Z. cbn [fst snd] in Z.
    set (s := (y - c) / B) in *. assert (ES : y = c + B * s) by (unfold s; field; lra).
    assert (X2 : x * x = A * A * (1 - s * s)). { transitivity (A * A * ((x - 0) / A * ((x - 0) / A))); [field; lra|]. replace ((x - 0) / A * ((x - 0) / A)) with (1 - s * s) by lra. ring. }
    assert (S1 : s * s <= 1) by (pose proof (Rle_0_sqr ((x - 0) / A)) as Q; unfold Rsqr in Q; lra).
    assert (EB' : e <= B) by nra. assert (SB : -1 <= s <= 1) by (split; nra).
    rewrite (dist_sqrt (x, y) (0, c + e) (B - e * s)); [|nra|].
    + rewrite (dist_sqrt (x, y) (0, c - e) (B + e * s)); [ring|nra|]. cbn [fst snd]. rewrite ES.
      replace ((x - 0) * (x - 0)) with (x * x) by ring. rewrite X2.
      replace ((B + e * s) * (B + e * s)) with (B * B + 2 * (B * e * s) + e * e * (s * s)) by ring. 
      replace ((c + B * s - (c - e)) * (c + B * s - (c - e))) with (B * B * (s * s) + 2 * (B * e * s) + e * e) by ring. rewrite E2. ring.
    + cbn [fst snd]. rewrite ES. replace ((x - 0) * (x - 0)) with (x * x) by ring. rewrite X2.
      replace ((B - e * s) * (B - e * s)) with (B * B - 2 * (B * e * s) + e * e * (s * s)) by ring.
      replace ((c + B * s - (c + e)) * (c + B * s - (c + e))) with (B * B * (s * s) - 2 * (B * e * s) + e * e) by ring. rewrite E2. ring.
Qed.

(** asking for the inverse hyperboloid always fails *)
Theorem C147_inverse_hyperbola : forall a b w fo, a <> 0 -> b <> 0 -> plot_conjugate_conics (a, b) w fo true = Raise NameError.
Proof.
  intros a b w fo A0 B0. unfold plot_conjugate_conics. destruct (hyperbola_even a b true (0, 0) 500) as [xy H]; [lia|now exists 250%nat|].
  rewrite H. cbn [rbind]. unfold inverse_ellipse. cbn [fst snd].
  destruct (Req_EM_T a 0); [contradiction|]. destruct (Req_EM_T b 0); [contradiction|]. reflexivity.
Qed.

(** * The window *)
Definition in_window (lim : R * R) (z : pt) : Prop := Rabs (fst z) <= fst lim /\ Rabs (snd z) <= snd lim.
Lemma ellipse_box : forall A B c z, 0 < A -> 0 < B -> on_ellipse A B c z -> Rabs (fst z - fst c) <= A /\ Rabs (snd z - snd c) <= B.
Proof.
  intros A B c z AP BP H. unfold on_ellipse in H. set (u := (fst z - fst c) / A) in *. set (v := (snd z - snd c) / B) in *.
  assert (fst z - fst c = A * u) by (unfold u; field; lra). assert (snd z - snd c = B * v) by (unfold v; field; lra).
  assert (u * u <= 1) by (pose proof (Rle_0_sqr v) as Q; unfold Rsqr in Q; lra). assert (v * v <= 1) by (pose proof (Rle_0_sqr u) as Q; unfold Rsqr in Q; lra).
  assert (-1 <= u <= 1) by (split; nra). assert (-1 <= v <= 1) by (split; nra).
  rewrite H0, H1. split; apply Rabs_le; nra.
Qed.
(** C148: by default the window shows the variance ellipse, and shows the whole ellipse of
    normals exactly when b is at most half of a or 5 (1 + sqrt 2) b is at most 9 sqrt (a^2 + b^2) *)
Theorem C148_window : forall a b fo g, 0 < a -> 0 < b -> plot_conjugate_conics (a, b) None fo false = Ok g ->
  (forall z, on_ellipse a b (0, 0) z -> in_window (cj_limits g) z) /\
  exists A B c, cj_ellipse g = param_ellipse (A, B) (0, c) 500 /\
  ((forall z, on_ellipse A B (0, c) z -> in_window (cj_limits g) z) <->
   b <= a / 2 \/ 5 * (1 + sqrt 2) * b <= 9 * sqrt (a * a + b * b)).
Proof.
  intros a b fo g A0 B0 H. destruct (plot_ok a b None fo ltac:(lra) ltac:(lra)) as (g' & G & A & B & c & EI & EA & EB & Ec & ELL & _ & T & NT & HH & FO & LI).
  rewrite H in G. injection G as <-. specialize (LI eq_refl). cbv zeta in LI.
  set (r := sqrt (a * a + b * b)) in *. assert (R2 : r * r = a * a + b * b) by (apply sqrt_def; nra). assert (RP : 0 <= r) by apply sqrt_pos.
  assert (RA : a <= r) by nra. assert (RB : b <= r) by nra.
  set (q := sqrt 2) in *. assert (Q2 : q * q = 2) by (apply sqrt_def; lra). assert (QP : 0 < q) by (apply sqrt_lt_R0; lra).
  assert (Q14 : 14 / 10 < q < 142 / 100) by (split; nra).
  assert (AP : 0 < A) by (rewrite EA; apply Rdiv_lt_0_compat; nra).
  assert (AE : A * a = b * b) by (rewrite EA; field; lra). subst B.
  split.
  - intros z Z. destruct (ellipse_box a b (0, 0) z A0 B0 Z) as [Z1 Z2]. cbn [fst snd] in Z1, Z2. rewrite Rminus_0_r in Z1, Z2.
    unfold in_window. rewrite LI. cbn [fst snd]. destruct (Rlt_dec (1 / 2 * a) b); split; lra.
  - exists A, b, c. split; [auto|]. rewrite LI. unfold in_window. cbn [fst snd]. destruct (Rlt_dec (1 / 2 * a) b) as [L|L]; split.
    + intros K. right. destruct (K (0, c + b)) as [_ K2]; [unfold on_ellipse; cbn [fst snd]; field; lra|]. cbn [snd] in K2.
      assert (0 <= b * q) by (apply Rmult_le_pos; lra). rewrite Rabs_right in K2 by lra. rewrite Ec in K2. lra.
    + intros [K|K]; [lra|]. intros z Z. destruct (ellipse_box A b (0, c) z AP B0 Z) as [Z1 Z2]. cbn [fst snd] in Z1, Z2. rewrite Rminus_0_r in Z1.
      split.
      * eapply Rle_trans; [exact Z1|].
        (* b is at most 1.2 a *)
        assert (U : 12 * b <= 9 * r). { assert (14 / 10 * b <= q * b) by (apply Rmult_le_compat_r; lra). lra. }
        assert (V : 0 <= (9 * r - 12 * b) * (9 * r + 12 * b)) by (apply Rmult_le_pos; lra).
        assert (0 <= a * a) by (apply Rmult_le_pos; lra). assert (b * b <= 2 * (a * a)) by lra.
        assert (A <= 2 * a); [|lra]. apply (Rmult_le_reg_r a); lra.
      * apply Rabs_le. apply abs_le_inv in Z2. rewrite Ec in Z2. split; [|lra]. assert (0 <= b * q) by (apply Rmult_le_pos; lra). lra.
    + intros _. left. lra.
    + intros _ z Z. destruct (ellipse_box A b (0, c) z AP B0 Z) as [Z1 Z2]. cbn [fst snd] in Z1, Z2. rewrite Rminus_0_r in Z1.
      split.
      * eapply Rle_trans; [exact Z1|]. assert (A <= a); [|lra]. apply (Rmult_le_reg_r a); nra.
      * apply Rabs_le. apply abs_le_inv in Z2. rewrite Ec in Z2. assert (0 <= b * q) by (apply Rmult_le_pos; lra).
        assert (b * q <= 142 / 100 * b) by nra. assert (2 * b <= a) by lra. assert (5 * (b * b) <= r * r) by nra.
        assert (22 / 10 * b <= r) by nra. split; lra.
Qed.

(** * Examples *)
Example C144_ex : exists xy, hyperbola (2, 1) true (0, 0) 500 = Ok xy /\ exists i p, drawn xy i = Some p /\ on_hyperbola 2 1 (0, 0) p.
Proof.
  destruct (C145_apart 2 1 0 0 500) as (xy & E & _ & (i & p & D & _) & _); [lra|lra|lia|now exists 250%nat|].
  exists xy. split; [auto|]. exists i, p. split; [auto|]. destruct (C144_hyperbola 2 1 true (0, 0) 500 xy ltac:(lra) ltac:(lra) E) as (_ & _ & K & _). now apply (K i).
Qed.
Example C145_ex : (exists xy, hyperbola (2, 1) true (0, 0) 500 = Ok xy /\ ~ joined (fun p => snd p - 0) xy) /\
  exists xy, hyperbola (2, 1) true (0, 0) 503 = Ok xy /\ joined (fun p => snd p - 0) xy.
Proof.
  split.
  - destruct (C145_apart 2 1 0 0 500) as (xy & E & J & _); [lra|lra|lia|now exists 250%nat|]. now exists xy.
  - apply (C145_odd_refuted 2 1 0 0 125); lra.
Qed.
Example C146_ex : exists g, plot_conjugate_conics (2, 1) None true false = Ok g.
Proof. destruct (plot_ok 2 1 None true) as (g & G & _); [lra|lra|]. now exists g. Qed.
Example C147_ex : exists g h1 h2 e1 e2, plot_conjugate_conics (1, 2) None true false = Ok g /\ cj_foci g = Some ((h1, h2), (e1, e2)) /\
  ~ exists A B c k, cj_ellipse g = param_ellipse (A, B) (0, c) 500 /\ 0 < A /\ 0 < B /\ forall z, on_ellipse A B (0, c) z -> dist z (0, e1) + dist z (0, e2) = k.
Proof.
  destruct (plot_ok 1 2 None true) as (g & G & A & B & c & _ & EA & EB & Ec & ELL & _ & _ & _ & _ & FO & _); [lra|lra|].
  destruct (FO eq_refl) as (e & _ & F). exists g. eexists. eexists. eexists. eexists. split; [auto|]. split; [exact F|].
  intros (A' & B' & c' & k & ELL' & AP & BP & K).
  destruct (C147_ellipse_foci 1 2 None g _ _ _ _ ltac:(lra) ltac:(lra) G F) as (A1 & B1 & c1 & E1 & I).
  assert (SAME : forall u v x u' v' x', param_ellipse (u, v) (0, x) 500 = param_ellipse (u', v') (0, x') 500 ->
     forall t, In t (linspace2pi 500) -> u * cos t + 0 = u' * cos t + 0 /\ v * sin t + x = v' * sin t + x').
  { intros u v x u' v' x' P t T. unfold param_ellipse in P. cbn [fst snd] in P.
    assert (E1' := f_equal fst P). assert (E2' := f_equal snd P). cbn [fst snd] in E1', E2'.
    split.
    - apply (ext_in_map E1' t T).
    - apply (ext_in_map E2' t T). }
  rewrite ELL' in E1. pose proof (SAME _ _ _ _ _ _ E1) as S.
  assert (T0 : In (angle 500 0) (linspace2pi 500)) by (rewrite <- (lin_nth 500 0 0) by lia; apply nth_In; rewrite lin_length; lia).
  assert (T1 : In (angle 500 1) (linspace2pi 500)) by (rewrite <- (lin_nth 500 1 0) by lia; apply nth_In; rewrite lin_length; lia).
  assert (Z0 : angle 500 0 = 0) by (unfold angle; cbn [Nat.eqb INR]; lra).
  assert (Z1 : 0 < angle 500 1 < PI).
  { unfold angle. cbn [Nat.eqb]. pose proof PI_RGT_0. replace (INR 1) with 1 by reflexivity. replace (INR (500 - 1)) with 499 by (rewrite INR_IZR_INZ; reflexivity). lra. }
  destruct (S _ T0) as [S1 S2]. rewrite Z0, cos_0, sin_0 in *. destruct (S _ T1) as [_ S3].
  pose proof (sin_gt_0 _ (proj1 Z1) (proj2 Z1)) as SP.
  assert (A' = A1) by lra. assert (c' = c1) by lra. assert (B' = B1) by nra. subst A1 c1 B1.
  assert (L : 2 <= 1) by (apply I; now exists k). lra.
Qed.
Example C148_ex : exists g, plot_conjugate_conics (1, 2) None false false = Ok g /\ ~ (2 <= 1 / 2 \/ 5 * (1 + sqrt 2) * 2 <= 9 * sqrt (1 * 1 + 2 * 2)).
Proof.
  destruct (plot_ok 1 2 None false) as (g & G & _); [lra|lra|]. exists g. split; [auto|]. intros [H|H]; [lra|].
  replace (1 * 1 + 2 * 2) with 5 in H by ring.
  assert (Q2 : sqrt 2 * sqrt 2 = 2) by (apply sqrt_def; lra). assert (QP : 0 <= sqrt 2) by apply sqrt_pos.
  assert (R2 : sqrt 5 * sqrt 5 = 5) by (apply sqrt_def; lra). assert (RP : 0 <= sqrt 5) by apply sqrt_pos.
  assert (14 / 10 < sqrt 2) by nra. assert (sqrt 5 < 23 / 10) by nra. nra.
Qed.

Print Assumptions C146_tangent.
Print Assumptions C146_asymptotes.
Print Assumptions C146_choices.
Print Assumptions C147_hyperbola_foci.
Print Assumptions C147_ellipse_foci.
Print Assumptions C147_inverse_hyperbola.
Print Assumptions C148_window.
