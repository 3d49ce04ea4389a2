(** C230: more points, more members. *)
From Coq Require Import Reals Lra Lia List Psatz Arith Permutation.
From Verif Require Import RVec Trig SpecPlane MPca MAxes LSvd LPca LFit LFit2 LStable LExamples MGroup LGroup PGroup SpecRepeat PRatio PRepeat.
Import ListNotations.
Open Scope R_scope.

(** An array with at least the scatter of another in every direction has no smaller
    singular value. *)
Lemma dominated : forall a b u u' s s' v v', is_svd a u s v -> is_svd b u' s' v' ->
  (forall d, Q a d d <= Q b d d) -> vx s <= vx s' /\ vy s <= vy s' /\ vz s <= vz s'.
Proof.
  intros a b u u' s s' v v' S S' H.
  destruct (svd_v _ _ _ _ S) as (o0 & o1 & o2 & o01 & o02 & o12).
  destruct (svd_v _ _ _ _ S') as (p0 & p1 & p2 & p01 & p02 & p12).
  destruct (Q_axes _ _ _ _ S) as (A0 & A1 & A2). destruct (Q_axes _ _ _ _ S') as (B0 & B1 & B2).
  pose proof (svd_s01 _ _ _ _ S). pose proof (svd_s12 _ _ _ _ S). pose proof (svd_s2 _ _ _ _ S).
  pose proof (svd_s01 _ _ _ _ S'). pose proof (svd_s12 _ _ _ _ S'). pose proof (svd_s2 _ _ _ _ S').
  split; [|split].
  - apply sq_le; [lra|]. rewrite <- A0. eapply Rle_trans; [apply H|]. apply (Q_upper _ _ _ _ _ S'). exact o0.
  - destruct (perp2 (r2 v) (r0 v')) as (w & W & W2 & W0). destruct (unitize w W) as (d & D & k & K & DK).
    assert (D2 : dot (r2 v) d = 0) by (rewrite DK, dot_scale_r, dot_comm, W2; ring).
    assert (D0 : dot (r0 v') d = 0) by (rewrite DK, dot_scale_r, dot_comm, W0; ring).
    assert (LO : vy s * vy s <= Q a d d).
    { rewrite (Q_svd _ _ _ _ d d S), D2. pose proof (parseval v d (svd_v _ _ _ _ S)) as P. rewrite D, D2 in P.
      assert (vy s * vy s <= vx s * vx s) by nra. nra. }
    assert (UP : Q b d d <= vy s' * vy s').
    { rewrite (Q_svd _ _ _ _ d d S'), D0. pose proof (parseval v' d (svd_v _ _ _ _ S')) as P. rewrite D, D0 in P.
      assert (vz s' * vz s' <= vy s' * vy s') by nra. nra. }
    apply sq_le; [lra|]. pose proof (H d). lra.
  - apply sq_le; [lra|]. eapply Rle_trans; [apply (Q_lower _ _ _ _ (r2 v') S); exact p2|].
    rewrite <- B2. apply H.
Qed.

(** the scatter about the own mean is least *)
Lemma scatter_least : forall a d c, Q (centered a) d d <= sum_sq_dist d c a.
Proof.
  intros [|p a] d c. { unfold Q, sum_sq_dist. simpl. lra. }
  destruct (mean_exists (p :: a)) as [m M]; [discriminate|]. rewrite (ssd_split d c m) by auto.
  pose proof (Rmult_le_pos _ _ (pos_INR (length (p :: a))) (Rle_0_sqr (dot d m - c))) as P. unfold Rsqr in P. lra.
Qed.
Lemma scatter_mean : forall a d m, is_mean m a -> Q (centered a) d d = sum_sq_dist d (dot d m) a.
Proof. intros a d m M. rewrite (ssd_split d (dot d m) m) by auto. ring. Qed.
Lemma ssd_app : forall d c a b, sum_sq_dist d c (a ++ b) = sum_sq_dist d c a + sum_sq_dist d c b.
Proof. intros. unfold sum_sq_dist. apply sumf_app. Qed.
Lemma scatter_parts : forall a b c d, Permutation (a ++ b) c -> Q (centered a) d d + Q (centered b) d d <= Q (centered c) d d.
Proof.
  intros a b c d P. rewrite <- (Q_perm _ _ d d (centered_perm _ _ P)).
  destruct (a ++ b) as [|p l] eqn:E.
  { destruct a; [|discriminate]. destruct b; [|discriminate]. unfold Q. simpl. lra. }
  rewrite <- E. destruct (mean_exists (a ++ b)) as [m M]; [rewrite E; discriminate|].
  rewrite (scatter_mean (a ++ b) d m M), ssd_app.
  pose proof (scatter_least a d (dot d m)). pose proof (scatter_least b d (dot d m)). lra.
Qed.

(** Further points, wherever they lie and wherever they are listed, make no singular value
    smaller, and the squared misfits of two parts add up to no more than that of the whole. *)
Theorem C230_more : forall svd1 svd2 arr extra arr' f f', lapack svd1 -> lapack svd2 ->
  Permutation (arr ++ extra) arr' ->
  PCAOrientation svd1 arr None None = Ok f -> PCAOrientation svd2 arr' None None = Ok f' ->
  vx (p_s f) <= vx (p_s f') /\ vy (p_s f) <= vy (p_s f') /\ vz (p_s f) <= vz (p_s f').
Proof.
  intros svd1 svd2 arr extra arr' f f' L1 L2 P F F'.
  destruct (fit_inv _ _ _ L1 F) as (_ & u & m & S & _). destruct (fit_inv _ _ _ L2 F') as (_ & u' & m' & S' & _).
  apply (dominated _ _ _ _ _ _ _ _ S S'). intros d. pose proof (scatter_parts _ _ _ d P).
  assert (0 <= Q (centered extra) d d) by (unfold Q; apply sumf_nonneg; intros; apply Rle_0_sqr). lra.
Qed.
Theorem C230_parts : forall svd1 svd2 svd3 a b c fa fb fc, lapack svd1 -> lapack svd2 -> lapack svd3 ->
  Permutation (a ++ b) c -> PCAOrientation svd1 a None None = Ok fa -> PCAOrientation svd2 b None None = Ok fb ->
  PCAOrientation svd3 c None None = Ok fc ->
  vz (p_s fa) * vz (p_s fa) + vz (p_s fb) * vz (p_s fb) <= vz (p_s fc) * vz (p_s fc).
Proof.
  intros svd1 svd2 svd3 a b c fa fb fc L1 L2 L3 P FA FB FC.
  destruct (fit_inv _ _ _ L1 FA) as (_ & ? & ? & SA & _). destruct (fit_inv _ _ _ L2 FB) as (_ & ? & ? & SB & _).
  destruct (fit_inv _ _ _ L3 FC) as (_ & ? & ? & SC & _).
  destruct (Q_axes _ _ _ _ SC) as (_ & _ & <-). destruct (svd_v _ _ _ _ SC) as (_ & _ & o2 & _).
  pose proof (scatter_parts _ _ _ (r2 (p_axes fc)) P).
  pose proof (Q_lower _ _ _ _ _ SA o2). pose proof (Q_lower _ _ _ _ _ SB o2). lra.
Qed.

(** ** Groups.  The members are fits as they are made. *)
Definition fresh (o : obj) : Prop := exists svd, lapack svd /\ PCAOrientation svd (p_array (o_fit o)) None None = Ok (o_fit o).
Definition member_sq (g : vec3 -> R) (os : list obj) : R := sumf (fun o => g (p_s (o_fit o)) * g (p_s (o_fit o))) os.
Lemma fresh_svd : forall o, fresh o -> exists u, is_svd (centered (p_array (o_fit o))) u (p_s (o_fit o)) (p_axes (o_fit o)) /\
  made o /\ p_array (o_fit o) <> [].
Proof.
  intros o (svd & L & F). destruct (fit_inv _ _ _ L F) as (N & u & m & S & _ & _ & A & _). exists u. split; auto. split; auto.
  intros E. rewrite E in N. simpl in N. lia.
Qed.
Definition scatter (d : vec3) (o : obj) : R := Q (centered (p_array (o_fit o))) d d.
Lemma group_scatter : forall os d, Forall fresh os -> Q (group_array false os) d d = sumf (scatter d) os.
Proof.
  intros os d H. unfold group_array. induction H as [|o os Ho H IH]; [reflexivity|].
  cbn [map concat sumf]. unfold Q in *. rewrite sumf_app, IH. f_equal.
  destruct (fresh_svd o Ho) as (_ & _ & M & _). unfold centered_array. rewrite M. reflexivity.
Qed.
Lemma group_centred : forall os, Forall fresh os -> group_array false os <> [] -> centered (group_array false os) = group_array false os.
Proof.
  intros os H N. apply centered_id; auto. apply group_sum. eapply Forall_impl; [|exact H]. intros o Ho. destruct (fresh_svd o Ho) as (_ & _ & M & _). exact M.
Qed.
Lemma scatter_range : forall os d, Forall fresh os -> nrm2 d = 1 -> member_sq vz os <= sumf (scatter d) os <= member_sq vx os.
Proof.
  intros os d H D. unfold member_sq. induction H as [|o os Ho H IH]; cbn [sumf]; [lra|].
  destruct (fresh_svd o Ho) as (u & S & _). unfold scatter at 1 3.
  pose proof (Q_lower _ _ _ _ d S D). pose proof (Q_upper _ _ _ _ d S D). lra.
Qed.
Lemma group_inv : forall svd os f, lapack svd -> Forall fresh os -> group_fit svd false None os = Ok f ->
  exists u, is_svd (group_array false os) u (p_s f) (p_axes f) /\ derived f.
Proof.
  intros svd os f L H G. unfold group_fit in G.
  destruct (PCAOrientation svd (group_array false os) None None) as [f0|e|] eqn:E; cbn [rbind] in G; try discriminate.
  injection G as <-. destruct (fit_inv _ _ _ L E) as (N & u & m & S & _ & _ & _ & _ & _ & _ & D). exists u.
  rewrite group_centred in S; auto. intros X. rewrite X in N. simpl in N. lia.
Qed.
Lemma ssd_ok : forall o d c, Q (centered (p_array (o_fit o))) d d <= sum_sq_dist d c (p_array (o_fit o)).
Proof. intros. apply scatter_least. Qed.

(** The squared misfit of a group is at least the sum of those of its members, with equality
    exactly when one plane direction fits every member as well as its own; the scatter is that
    of the members, and the greatest singular value is no greater than theirs together. *)
Theorem C230_group : forall svd os f, lapack svd -> Forall fresh os -> group_fit svd false None os = Ok f ->
  member_sq vz os <= vz (p_s f) * vz (p_s f) /\ vx (p_s f) * vx (p_s f) <= member_sq vx os /\
  vx (p_s f) * vx (p_s f) + vy (p_s f) * vy (p_s f) + vz (p_s f) * vz (p_s f) = member_sq vx os + member_sq vy os + member_sq vz os /\
  (vz (p_s f) * vz (p_s f) = member_sq vz os <->
   Forall (fun o => exists c, sum_sq_dist (p_normal f) c (p_array (o_fit o)) = vz (p_s (o_fit o)) * vz (p_s (o_fit o))) os).
Proof.
  intros svd os f L H G. destruct (group_inv svd os f L H G) as (u & S & D).
  destruct (Q_axes _ _ _ _ S) as (A0 & _ & A2). destruct (svd_v _ _ _ _ S) as (o0 & _ & o2 & _).
  rewrite group_scatter in A0, A2 by auto. rewrite <- A0, <- A2.
  split; [apply scatter_range; auto|]. split; [apply scatter_range; auto|]. rewrite A0, A2. split.
  - pose proof (Q_trace _ _ _ _ S) as T. rewrite !group_scatter in T by auto. rewrite <- T. clear - H.
    unfold member_sq. induction H as [|o os Ho H IH]; cbn [sumf]; [ring|].
    destruct (fresh_svd o Ho) as (u & S & _). pose proof (Q_trace _ _ _ _ S) as T. unfold scatter at 1 3 5. lra.
  - rewrite <- A2. pose proof (normal_line f D) as NL.
    assert (EN : forall o, scatter (r2 (p_axes f)) o = scatter (p_normal f) o) by (intros o; unfold scatter; symmetry; apply same_line_Q; auto).
    assert (UN : nrm2 (p_normal f) = 1) by (rewrite (same_line_unit _ _ NL); exact o2).
    rewrite (sumf_ext _ (scatter (r2 (p_axes f))) (scatter (p_normal f))) by (intros; apply EN). set (n := p_normal f) in *.
    clear - H UN. unfold member_sq. induction H as [|o os Ho H IH].
    { split; intros; [constructor|reflexivity]. }
    cbn [sumf]. destruct (fresh_svd o Ho) as (u & S & _ & NE). pose proof (Q_lower _ _ _ _ n S UN) as LO.
    destruct (scatter_range os n H UN) as (LOS & _). unfold member_sq in LOS. split.
    + intros E. unfold scatter at 1 in E. constructor; [|apply IH; lra].
      destruct (mean_exists _ NE) as [m M]. exists (dot n m). rewrite <- (scatter_mean _ n m M). lra.
    + intros E. inversion E as [|? ? (c & C) E']; subst. apply IH in E'. rewrite E'. f_equal.
      apply Rle_antisym; [|exact LO]. rewrite <- C. apply scatter_least.
Qed.

(** A group fits without misfit exactly when its members lie in parallel planes, and then its
    normal is theirs. *)
Theorem C230_exact : forall svd os f, lapack svd -> Forall fresh os -> group_fit svd false None os = Ok f ->
  (vz (p_s f) = 0 <-> exists n, unit3 n /\ Forall (fun o => exists c, forall p, In p (p_array (o_fit o)) -> dot n p = c) os) /\
  (vz (p_s f) = 0 -> Forall (fun o => exists c, forall p, In p (p_array (o_fit o)) -> dot (p_normal f) p = c) os).
Proof.
  intros svd os f L H G. destruct (group_inv svd os f L H G) as (u & S & D).
  destruct (Q_axes _ _ _ _ S) as (_ & _ & A2). destruct (svd_v _ _ _ _ S) as (_ & _ & o2 & _).
  pose proof (normal_line f D) as NL. rewrite <- (same_line_Q _ _ _ NL), group_scatter in A2 by auto.
  assert (UN : nrm2 (p_normal f) = 1) by (rewrite (same_line_unit _ _ NL); exact o2).
  assert (F : vz (p_s f) = 0 -> Forall (fun o => exists c, forall p, In p (p_array (o_fit o)) -> dot (p_normal f) p = c) os).
  { intros Z. rewrite Z, Rmult_0_l in A2. clear - A2 H. set (n := p_normal f) in *.
    assert (NN : forall o, 0 <= scatter n o) by (intros; unfold scatter, Q; apply sumf_nonneg; intros; apply Rle_0_sqr).
    induction H as [|o os Ho H IH]; constructor.
    - destruct (fresh_svd o Ho) as (_ & _ & _ & NE). destruct (mean_exists _ NE) as [m M]. exists (dot n m). apply ssd_zero.
      rewrite <- (scatter_mean _ n m M). cbn [sumf] in A2. pose proof (sumf_nonneg _ (scatter n) os (fun o _ => NN o)). pose proof (NN o) as NO. change (Q (centered (p_array (o_fit o))) n n) with (scatter n o). lra.
    - apply IH. cbn [sumf] in A2. pose proof (sumf_nonneg _ (scatter n) os (fun o _ => NN o)). pose proof (NN o). lra. }
  split; [|exact F]. split.
  - intros Z. exists (p_normal f). split; [exact UN|]. apply F, Z.
  - intros (n & N & A). pose proof (Q_lower _ _ _ _ n S N) as LO. rewrite group_scatter in LO by auto.
    assert (sumf (scatter n) os <= 0).
    { clear - A. induction A as [|o os (c & C) A IH]; cbn [sumf]; [lra|].
      pose proof (scatter_least (p_array (o_fit o)) n c) as B. rewrite (proj2 (ssd_zero n c _) C) in B. unfold scatter at 1. lra. }
    assert (Z : vz (p_s f) * vz (p_s f) = 0) by (pose proof (Rle_0_sqr (vz (p_s f))) as X; unfold Rsqr in X; lra).
    apply Rmult_integral in Z. tauto.
Qed.

(** Pooled, no singular value is smaller than that of any member. *)
Theorem C230_pooled : forall svd os f, lapack svd -> Forall fresh os -> group_fit svd true None os = Ok f ->
  (forall o, In o os -> vx (p_s (o_fit o)) <= vx (p_s f) /\ vy (p_s (o_fit o)) <= vy (p_s f) /\ vz (p_s (o_fit o)) <= vz (p_s f)) /\
  member_sq vz os <= vz (p_s f) * vz (p_s f).
Proof.
  intros svd os f L H G. unfold group_fit in G. change (group_array true os) with (points os) in G.
  destruct (PCAOrientation svd (points os) None None) as [f0|e|] eqn:E; cbn [rbind] in G; try discriminate.
  injection G as <-. change (p_s (with_mean f0 _)) with (p_s f0).
  destruct (fit_inv _ _ _ L E) as (N & u & m & S & M & _).
  assert (PS : forall d, sumf (scatter d) os <= Q (centered (points os)) d d).
  { intros d. rewrite (scatter_mean _ d m M). clear. unfold points. induction os as [|o os IH]; [unfold sum_sq_dist; simpl; lra|].
    cbn [map concat sumf]. rewrite ssd_app. pose proof (scatter_least (p_array (o_fit o)) d (dot d m)). unfold scatter at 1. lra. }
  split.
  - intros o I. rewrite Forall_forall in H. destruct (fresh_svd o (H o I)) as (uo & SO & _).
    apply (dominated _ _ _ _ _ _ _ _ SO S). intros d. eapply Rle_trans; [|apply PS].
    apply in_split in I. destruct I as (l1 & l2 & ->). rewrite sumf_app. cbn [sumf].
    assert (Z : forall l, 0 <= sumf (scatter d) l) by (intros l; apply sumf_nonneg; intros; unfold scatter, Q; apply sumf_nonneg; intros; apply Rle_0_sqr).
    pose proof (Z l1). pose proof (Z l2). unfold scatter at 2. lra.
  - destruct (Q_axes _ _ _ _ S) as (_ & _ & <-). destruct (svd_v _ _ _ _ S) as (_ & _ & o2 & _).
    eapply Rle_trans; [apply (scatter_range os _ H o2)|]. apply PS.
Qed.

(** ** Points at the centre leave the singular values and the plane as they are, but count
    as measurements: every eigenvalue is smaller. *)
Theorem C230_centre : forall svd1 svd2 arr arr' m k f f', lapack svd1 -> lapack svd2 -> is_mean m arr ->
  Permutation (arr ++ repeat m k) arr' ->
  PCAOrientation svd1 arr None None = Ok f -> PCAOrientation svd2 arr' None None = Ok f' ->
  p_s f' = p_s f /\ p_mean f' = p_mean f /\ (vz (p_s f) < vy (p_s f) -> same_line (p_normal f) (p_normal f')) /\
  exists e e', eigenvalues f = Some e /\ eigenvalues f' = Some e' /\
    vscale (INR (length arr + k) - 1) e' = vscale (INR (length arr) - 1) e.
Proof.
  intros svd1 svd2 arr arr' m k f f' L1 L2 M P F F'.
  destruct (fit_inv _ _ _ L1 F) as (N & u & c & S & C & _ & _ & PM & _ & PN & _).
  destruct (fit_inv _ _ _ L2 F') as (N' & u' & c' & S' & C' & _ & _ & PM' & _ & PN' & _).
  assert (c = m) by (eapply mean_unique; eauto). subst c.
  assert (RM : is_mean m (arr ++ repeat m k)).
  { destruct M as [NE E]. split; [destruct arr; [congruence|discriminate]|]. rewrite app_length, repeat_length, plus_INR.
    assert (V : vsum (arr ++ repeat m k) = vadd (vsum arr) (vscale (INR k) m)).
    { clear. unfold vsum. rewrite !sumf_app. assert (R1 : forall g : vec3 -> R, sumf g (repeat m k) = INR k * g m).
      { intros g. induction k as [|k IH]; [simpl; ring|]. cbn [repeat sumf]. rewrite IH, S_INR. ring. }
      rewrite !R1. reflexivity. }
    rewrite V, <- E. apply vec3_eq; simpl; ring. }
  assert (M' : is_mean m arr') by (eapply mean_perm; eauto).
  assert (c' = m) by (eapply mean_unique; eauto). subst c'.
  assert (QQ : forall d e, Q (centered arr') d e = Q (centered arr) d e).
  { intros d e. rewrite <- (Q_perm _ _ d e (centered_perm _ _ P)), (centered_mean _ _ RM), (centered_mean _ _ M).
    unfold Q. rewrite map_app, sumf_app, <- Rplus_0_r. f_equal. clear.
    induction k as [|k IH]; [reflexivity|]. cbn [repeat map sumf]. rewrite IH. replace (vsub m m) with vzero by (apply vec3_eq; simpl; ring).
    rewrite !dot_zero_l. ring. }
  destruct (two_fits svd1 svd2 arr arr' f f' mid 1 L1 L2 F F') as (ES & EN).
  { repeat split; vunf; ring. } { lra. } { intros d e. rewrite !mv_id, QQ. ring. }
  assert (ES' : p_s f' = p_s f) by (rewrite ES; apply vec3_eq; simpl; ring).
  split; auto. split; [congruence|]. split; [intros G; rewrite <- (mv_id (p_normal f)); auto|].
  pose proof (eig_some svd1 arr f L1 F) as E. pose proof (eig_some svd2 arr' f' L2 F') as E'.
  do 2 eexists. split; [exact E|]. split; [exact E'|]. rewrite ES', PN, PN', <- (Permutation_length P), app_length, repeat_length.
  assert (3 <= INR (length arr)) by (apply (le_INR 3) in N; simpl in N; lra).
  assert (0 <= INR k) by apply pos_INR. rewrite plus_INR. apply vec3_eq; simpl; field; lra.
Qed.

(** So the angular errors come down to the aspect ratios, as if the points had been measured
    again. *)
Theorem C230_centre_error : forall svd1 svd2 st Z arr arr' m k f f', lapack svd1 -> lapack svd2 -> bounded st Z -> is_mean m arr ->
  Permutation (arr ++ repeat m k) arr' ->
  PCAOrientation svd1 arr None None = Ok f -> PCAOrientation svd2 arr' None None = Ok f' -> 0 < vy (p_s f) ->
  let t := 2 * Z / sqrt (INR (length arr + k) - 2) in t <= 1 / 2 ->
  exists a b, fit_angular_errors st f' = Some (a, b) /\ 0 <= a < 90 /\ 0 <= b < 90 /\
    vz (p_s f) / vx (p_s f) <= tan (radians a) <= vz (p_s f) / vx (p_s f) * (1 + 2 * t) /\
    vz (p_s f) / vy (p_s f) <= tan (radians b) <= vz (p_s f) / vy (p_s f) * (1 + 2 * t).
Proof.
  intros svd1 svd2 st Z arr arr' m k f f' L1 L2 B M P F F' P1 t T.
  destruct (C230_centre svd1 svd2 arr arr' m k f f' L1 L2 M P F F') as (ES & _).
  assert (EL : (1 * length arr' = length arr + k)%nat) by (rewrite <- (Permutation_length P), app_length, repeat_length; lia).
  rewrite <- ES in *.
  assert (R1 : Permutation (repeated 1 arr') arr') by (unfold repeated; cbn [repeat concat]; rewrite app_nil_r; apply Permutation_refl).
  pose proof (C210_rate svd2 svd2 st Z 1 arr' arr' f' f' L2 L2 B ltac:(lia) R1 F' F' P1) as R. cbv zeta in R. rewrite EL in R. apply R. exact T.
Qed.

(** Points off the plane raise the misfit, points at the centre leave it. *)
Example C230_more_ex : exists f f', PCAOrientation svd_ref (axis_data 3 2 0) None None = Ok f /\
  PCAOrientation svd_ref (axis_data 3 2 0 ++ [V3 0 0 1; V3 0 0 (-1)]) None None = Ok f' /\
  vz (p_s f) = 0 /\ 0 < vz (p_s f').
Proof.
  destruct example_coplanar_fit as (f & F & Z & _).
  destruct (fit_exists svd_ref (axis_data 3 2 0 ++ [V3 0 0 1; V3 0 0 (-1)]) lapack_ref) as [f' F']; [simpl; lia|].
  exists f, f'. split; auto. split; auto. split; auto.
  destruct (fit_inv _ _ _ lapack_ref F') as (_ & u & m & S & _). destruct (svd_v _ _ _ _ S) as (_ & _ & o2 & _).
  destruct (Q_axes _ _ _ _ S) as (_ & _ & A2). pose proof (svd_s2 _ _ _ _ S) as S2.
  rewrite centered_id in A2; [|discriminate|unfold axis_data, vsum; simpl; apply vec3_eq; simpl; ring].
  destruct (r2 (p_axes f')) as [x y z]. unfold Q, axis_data, dot in *. simpl in *.
  assert (0 < vz (p_s f') * vz (p_s f')) by nra. nra.
Qed.

(** Two sheets at right angles: the group misfit is not the sum of the members'. *)
Theorem C230_sum_refuted : exists os f, Forall fresh os /\ group_fit svd_ref false None os = Ok f /\
  4 * member_sq vz os <= vz (p_s f) * vz (p_s f) /\ 0 < vz (p_s f).
Proof.
  destruct (axis_fit 3 2 1) as [f1 F1]. destruct (axis_fit 1 2 3) as [f2 F2].
  set (os := [mkObj f1 None None false; mkObj f2 None None false]).
  assert (A1 : p_array f1 = axis_data 3 2 1) by (destruct (fit_inv _ _ _ lapack_ref F1) as (_ & ? & ? & _ & _ & _ & _ & _ & E & _); exact E).
  assert (A2 : p_array f2 = axis_data 1 2 3) by (destruct (fit_inv _ _ _ lapack_ref F2) as (_ & ? & ? & _ & _ & _ & _ & _ & E & _); exact E).
  assert (FR : Forall fresh os).
  { repeat constructor; exists svd_ref; (split; [exact lapack_ref|]); cbn [o_fit]; congruence. }
  assert (GL : (3 <= length (group_array false os))%nat).
  { unfold group_array, os. cbn [map concat o_fit]. rewrite !app_length. unfold centered_array.
    destruct (fit_inv _ _ _ lapack_ref F1) as (_ & ? & ? & _ & _ & _ & E & _). rewrite E, centered_length. simpl. lia. }
  destruct (fit_exists svd_ref _ lapack_ref GL) as [f0 F0].
  assert (G : exists f, group_fit svd_ref false None os = Ok f) by (unfold group_fit; rewrite F0; eexists; reflexivity).
  destruct G as [f G]. exists os, f. split; auto. split; auto.
  destruct (group_inv _ _ _ lapack_ref FR G) as (u & S & _). destruct (Q_axes _ _ _ _ S) as (_ & _ & Q2).
  destruct (svd_v _ _ _ _ S) as (_ & _ & o2 & _). pose proof (svd_s2 _ _ _ _ S) as S2.
  rewrite group_scatter in Q2 by auto. unfold os, scatter in Q2. cbn [sumf o_fit] in Q2. rewrite A1, A2, !axis_centered, !axis_Q in Q2.
  destruct (fit_inv _ _ _ lapack_ref F1) as (_ & ? & ? & S1 & _). destruct (fit_inv _ _ _ lapack_ref F2) as (_ & ? & ? & S3 & _).
  pose proof (Q_lower _ _ _ _ ez S1 ltac:(unfold nrm2; vunf; ring)) as B1. pose proof (Q_lower _ _ _ _ ex S3 ltac:(unfold nrm2; vunf; ring)) as B2.
  rewrite axis_centered, axis_Q in B1, B2. unfold ex, ez in B1, B2. cbn [vx vy vz] in B1, B2.
  assert (LO : 16 <= vz (p_s f) * vz (p_s f)).
  { rewrite <- Q2. clear - o2. destruct (r2 (p_axes f)) as [x y z]. unfold dot in o2. cbn [vx vy vz] in *.
    pose proof (Rle_0_sqr x). pose proof (Rle_0_sqr z). unfold Rsqr in *. lra. }
  split.
  - unfold member_sq, os. cbn [sumf o_fit]. lra.
  - destruct S2 as [S2|S2]; auto. rewrite <- S2 in LO. lra.
Qed.

Example C230_centre_ex : exists f f', PCAOrientation svd_ref (axis_data 3 2 1) None None = Ok f /\
  PCAOrientation svd_ref (axis_data 3 2 1 ++ repeat vzero 10) None None = Ok f' /\
  p_s f' = V3 (sqrt 2 * 3) (sqrt 2 * 2) (sqrt 2 * 1) /\
  eigenvalues f' = Some (V3 (18 / 15) (8 / 15) (2 / 15)).
Proof.
  destruct example_fit as (f & F & E & _).
  destruct (fit_exists svd_ref (axis_data 3 2 1 ++ repeat vzero 10) lapack_ref) as [f' F']; [simpl; lia|].
  exists f, f'. split; auto. split; auto.
  assert (M : is_mean vzero (axis_data 3 2 1)) by (split; [discriminate|]; unfold axis_data, vsum; apply vec3_eq; simpl; ring).
  destruct (C230_centre _ _ _ _ _ _ _ _ lapack_ref lapack_ref M (Permutation_refl _) F F') as (ES & _).
  rewrite ES. split; auto. rewrite (eig_some _ _ _ lapack_ref F'), ES, E.
  destruct (fit_inv _ _ _ lapack_ref F') as (_ & ? & ? & _ & _ & _ & _ & _ & _ & -> & _).
  pose proof (sqrt_sqrt 2 ltac:(lra)) as S2. f_equal. apply vec3_eq; cbn [vx vy vz]; simpl length; simpl INR;
    match goal with |- ?a * ?b * (?a * ?b) / _ = _ => replace (a * b * (a * b)) with ((a * a) * (b * b)) by ring; rewrite S2; field end.
Qed.

Print Assumptions C230_more.
Print Assumptions C230_parts.
Print Assumptions C230_group.
Print Assumptions C230_exact.
Print Assumptions C230_pooled.
Print Assumptions C230_centre.
Print Assumptions C230_centre_error.
Print Assumptions C230_sum_refuted.
