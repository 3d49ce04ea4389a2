(** C213: the graticule and its labels. *)
From Coq Require Import Reals Lra Lia List ZArith String Sorted.
From Verif Require Import RVec MUi MGrat SpecGrat.
Import ListNotations.
Open Scope R_scope.

Lemma ceil_spec : forall x, x <= IZR (ceilZ x) < x + 1.
Proof.
  intros x. unfold ceilZ. destruct (base_Int_part (- x)) as (A & B). rewrite opp_IZR. lra.
Qed.
Lemma below_ceil : forall i y, (i < Z.to_nat (ceilZ y))%nat <-> INR i < y.
Proof.
  intros i y. destruct (ceil_spec y) as (A & B). rewrite INR_IZR_INZ. split; intros H.
  - assert (Z.of_nat i <= ceilZ y - 1)%Z by lia. apply IZR_le in H0. rewrite minus_IZR in H0. lra.
  - assert (Z.of_nat i < ceilZ y)%Z by (apply lt_IZR; lra). lia.
Qed.
Lemma sequence_in : forall a b d v, 0 < d -> In v (sequence a b d) <-> exists i, v = a + INR i * d /\ v < b.
Proof.
  intros a b d v D. unfold sequence. rewrite in_map_iff. split.
  - intros (i & E & H). exists i. split; auto. apply in_seq in H.
    assert (L : (i < Z.to_nat (ceilZ ((b - a) / d)))%nat) by lia. apply below_ceil in L.
    apply (Rmult_lt_compat_r d) in L; auto. unfold Rdiv in L. rewrite Rmult_assoc, Rinv_l in L by lra. lra.
  - intros (i & E & H). exists i. split; auto. apply in_seq. split; [lia|]. cbn [plus].
    apply below_ceil. apply (Rmult_lt_reg_r d); auto. unfold Rdiv. rewrite Rmult_assoc, Rinv_l by lra. lra.
Qed.
Lemma sequence_sorted : forall a b d, 0 < d -> StronglySorted Rlt (sequence a b d).
Proof.
  intros a b d D. unfold sequence. generalize (Z.to_nat (ceilZ ((b - a) / d))). intros n. generalize 0%nat.
  induction n; intros k; cbn [seq map]; constructor; auto.
  apply Forall_forall. intros v H. apply in_map_iff in H. destruct H as (i & E & H). apply in_seq in H.
  assert (INR k < INR i) by (apply lt_INR; lia). subst v. apply Rplus_lt_compat_l. apply Rmult_lt_compat_r; auto.
Qed.
Lemma sorted_nodup : forall l, StronglySorted Rlt l -> NoDup l.
Proof.
  induction 1; constructor; auto. intros I. rewrite Forall_forall in H0. apply H0 in I. lra.
Qed.
Lemma major_in : forall a b d v, 0 < d -> In v (major a b d) <-> multiple d v /\ a <= v < b.
Proof.
  intros a b d v D. unfold major. rewrite sequence_in by auto. destruct (ceil_spec (a / d)) as (C1 & C2).
  assert (A : a = a / d * d) by (field; lra). split.
  - intros (i & E & H). split; [|split; auto].
    + exists (ceilZ (a / d) + Z.of_nat i)%Z. rewrite plus_IZR, <- INR_IZR_INZ. lra.
    + assert (a <= IZR (ceilZ (a / d)) * d) by (rewrite A at 1; apply Rmult_le_compat_r; lra).
      pose proof (pos_INR i). assert (0 <= INR i * d) by (apply Rmult_le_pos; lra). lra.
  - intros ((k & E) & H1 & H2). subst v. rewrite A in H1. apply Rmult_le_reg_r in H1; auto.
    assert (K : (ceilZ (a / d) - 1 < k)%Z) by (apply lt_IZR; rewrite minus_IZR; lra).
    exists (Z.to_nat (k - ceilZ (a / d))). split; auto. rewrite INR_IZR_INZ, Z2Nat.id by lia. rewrite minus_IZR. ring.
Qed.
Lemma major_nodup : forall a b d, 0 < d -> NoDup (major a b d).
Proof. intros. apply sorted_nodup. apply sequence_sorted; auto. Qed.

Lemma rem_spec : forall v d, 0 < d -> remainder v d (js_rem v d).
Proof.
  intros v d D. unfold js_rem. assert (V : v = v / d * d) by (field; lra). set (q := v / d) in *. clearbody q.
  destruct (Rlt_dec q 0) as [N|N].
  - destruct (ceil_spec q) as (A & B). set (k := ceilZ q) in *. clearbody k. subst v.
    assert (R0 : q * d - d * IZR k = (q - IZR k) * d) by ring. rewrite R0.
    split; [exists k; ring|]. split.
    + rewrite Rabs_left1 by (assert (0 <= (IZR k - q) * d) by (apply Rmult_le_pos; lra); lra).
      assert (0 < (1 - IZR k + q) * d) by (apply Rmult_lt_0_compat; lra). lra.
    + replace ((q - IZR k) * d * (q * d)) with ((IZR k - q) * - q * (d * d)) by ring.
      apply Rmult_le_pos; [apply Rmult_le_pos; lra|]. apply Rmult_le_pos; lra.
  - destruct (base_Int_part q) as (A & B). set (k := Int_part q) in *. clearbody k. subst v.
    assert (R0 : q * d - d * IZR k = (q - IZR k) * d) by ring. rewrite R0.
    split; [exists k; ring|]. split.
    + rewrite Rabs_right by (apply Rle_ge, Rmult_le_pos; lra).
      assert (0 < (1 + IZR k - q) * d) by (apply Rmult_lt_0_compat; lra). lra.
    + replace ((q - IZR k) * d * (q * d)) with ((q - IZR k) * q * (d * d)) by ring.
      apply Rmult_le_pos; [apply Rmult_le_pos; lra|]. apply Rmult_le_pos; lra.
Qed.
Lemma small_multiple : forall d v, 0 < d -> multiple d v -> Rabs v < d -> v = 0.
Proof.
  intros d v D (k & E) A. apply Rabs_def2 in A. subst v.
  assert (IZR k < 1) by (apply (Rmult_lt_reg_r d); lra). assert (-1 < IZR k) by (apply (Rmult_lt_reg_r d); lra).
  assert (k = 0%Z). { apply (lt_IZR k 1) in H. apply (lt_IZR (-1) k) in H0. lia. }
  subst k. simpl. ring.
Qed.
Lemma rem_unique : forall v d r s, 0 < d -> remainder v d r -> remainder v d s -> r = s.
Proof.
  intros v d r s D ((k & E1) & A1 & S1) ((m & E2) & A2 & S2).
  assert (M : multiple d (r - s)) by (exists (m - k)%Z; rewrite minus_IZR; lra).
  destruct (Req_dec v 0) as [Z|Z].
  - assert (r = 0). { apply (small_multiple d); auto. exists (- k)%Z. rewrite opp_IZR. lra. }
    assert (s = 0). { apply (small_multiple d); auto. exists (- m)%Z. rewrite opp_IZR. lra. } lra.
  - assert (r - s = 0); [|lra]. apply (small_multiple d); auto. apply Rabs_def2 in A1. apply Rabs_def2 in A2.
    apply Rabs_def1; destruct (Rdichotomy _ _ Z) as [N|N].
    + assert (r <= 0). { apply Rnot_lt_le. intros X. assert (0 < r * - v) by (apply Rmult_lt_0_compat; lra). lra. } lra.
    + assert (0 <= s). { apply Rnot_lt_le. intros X. assert (0 < - s * v) by (apply Rmult_lt_0_compat; lra). lra. } lra.
    + assert (s <= 0). { apply Rnot_lt_le. intros X. assert (0 < s * - v) by (apply Rmult_lt_0_compat; lra). lra. } lra.
    + assert (0 <= r). { apply Rnot_lt_le. intros X. assert (0 < - r * v) by (apply Rmult_lt_0_compat; lra). lra. } lra.
Qed.
Lemma eps_pos : 0 < eps.
Proof. unfold eps. lra. Qed.
Lemma far_spec : forall d v, 0 < d -> far d v = true <-> exists r, remainder v d r /\ eps < Rabs r.
Proof.
  intros d v D. unfold far. pose proof (rem_spec v d D) as S. destruct (Rlt_dec eps (Rabs (js_rem v d))) as [L|L]; split; intros H; auto.
  - exists (js_rem v d). auto.
  - discriminate.
  - exfalso. destruct H as (r & H & A). rewrite (rem_unique v d _ _ D S H) in L. auto.
Qed.
Lemma multiple_rem : forall d v, 0 < d -> multiple d v -> remainder v d 0.
Proof. intros d v D (k & E). split; [exists k; lra|]. rewrite Rabs_R0, Rmult_0_l. lra. Qed.
Lemma far_multiple : forall d v, 0 < d -> multiple d v -> far d v = false.
Proof.
  intros d v D M. destruct (far d v) eqn:F; auto. exfalso. apply far_spec in F; auto. destruct F as (r & H & A).
  rewrite (rem_unique v d r 0 D H (multiple_rem d v D M)), Rabs_R0 in A. pose proof eps_pos. lra.
Qed.

Lemma NoDup_app_intro : forall {A} (l l' : list A), NoDup l -> NoDup l' -> (forall a, In a l -> In a l' -> False) -> NoDup (l ++ l').
Proof.
  intros A l l' H H' D. induction H; cbn [app]; auto. constructor.
  - rewrite in_app_iff. intros [X|X]; [auto|]. apply (D x); simpl; auto.
  - apply IHNoDup. intros a X Y. apply (D a); simpl; auto.
Qed.
Lemma NoDup_map_inj : forall {A B} (f : A -> B) l, (forall x y, In x l -> In y l -> f x = f y -> x = y) -> NoDup l -> NoDup (map f l).
Proof.
  intros A B f l I H. induction H; cbn [map]; constructor.
  - intros X. apply in_map_iff in X. destruct X as (y & E & Y). apply H. rewrite (I x y); simpl; auto.
  - apply IHNoDup. intros a b X Y. apply I; simpl; auto.
Qed.

(** * the two kinds of lines *)
Definition steps (a b d : R) : list R := (sequence a (b - eps) d ++ [b])%list.
Lemma steps_form : forall a b d, 0 < d -> a < b - eps ->
  exists c r, steps a b d = a :: c :: r /\ StronglySorted Rlt (steps a b d) /\ hd_error (rev (steps a b d)) = Some b.
Proof.
  intros a b d D H. assert (S : StronglySorted Rlt (steps a b d)).
  { unfold steps. pose proof (sequence_sorted a (b - eps) d D) as S.
    assert (B : Forall (fun v => v < b) (sequence a (b - eps) d)).
    { apply Forall_forall. intros v I. apply sequence_in in I; auto. destruct I as (i & _ & L). pose proof eps_pos. lra. }
    induction S; cbn [app]; [constructor; constructor|]. inversion B; subst. constructor; auto.
    apply Forall_app. split; auto. }
  assert (I : (0 < Z.to_nat (ceilZ ((b - eps - a) / d)))%nat).
  { apply below_ceil. cbn [INR]. apply Rdiv_lt_0_compat; lra. }
  assert (L : hd_error (rev (steps a b d)) = Some b) by (unfold steps; rewrite rev_app_distr; reflexivity).
  unfold steps, sequence in *. destruct (Z.to_nat (ceilZ ((b - eps - a) / d))) as [|n]; [lia|].
  cbn [seq map app INR] in *. rewrite Rmult_0_l, Rplus_0_r in *.
  destruct (map (fun i => a + INR i * d) (seq 1 n) ++ [b])%list as [|c r] eqn:E.
  - destruct (map (fun i => a + INR i * d) (seq 1 n)); discriminate.
  - exists c, r. auto.
Qed.
Lemma sorted_map : forall (f : R -> R * R) (g : R * R -> R) l, (forall v, g (f v) = v) ->
  StronglySorted Rlt l -> StronglySorted (fun p q => g p < g q) (map f l).
Proof.
  intros f g l E. induction 1; cbn [map]; constructor; auto. apply Forall_forall. intros p I. apply in_map_iff in I.
  destruct I as (v & <- & I). rewrite !E. rewrite Forall_forall in H0. auto.
Qed.
Definition line_at (t : ltype) (a b d v : R) : line := match t with Lon => graticuleX a b d v | Lat => graticuleY a b d v end.
Definition other (t : ltype) : ltype := match t with Lon => Lat | Lat => Lon end.
Definition pt (t : ltype) (v c : R) : R * R := match t with Lon => (v, c) | Lat => (c, v) end.
Definition const (t : ltype) (v : R) (l : line) : Prop := match t with Lon => meridian v l | Lat => parallel v l end.
Lemma const_iff : forall t v l, const t v l <-> l <> nil /\ forall p, In p l -> coord t p = v.
Proof. intros [] v l; reflexivity. Qed.
Lemma line_at_map : forall t a b d v, line_at t a b d v = map (pt t v) (steps a b d).
Proof. intros [] a b d v; reflexivity. Qed.
Lemma coord_pt : forall t v c, coord t (pt t v c) = v /\ coord (other t) (pt t v c) = c.
Proof. intros [] v c; split; reflexivity. Qed.
Lemma line_facts : forall t a b d v, 0 < d -> a < b - eps ->
  const t v (line_at t a b d v) /\ runs (coord (other t)) a b (line_at t a b d v) /\
  exists c r, a < c /\ line_at t a b d v = pt t v a :: pt t v c :: r.
Proof.
  intros t a b d v D H. rewrite line_at_map. destruct (steps_form a b d D H) as (c & r & E & S & L).
  rewrite E in *. split; [|split].
  - apply const_iff. split; [discriminate|]. intros p I. apply in_map_iff in I. destruct I as (x & <- & _). apply coord_pt.
  - split; [|split].
    + exists (pt t v a). split; [reflexivity|]. apply coord_pt.
    + exists (pt t v b). split; [|apply coord_pt]. rewrite <- map_rev. destruct (rev (a :: c :: r)); [discriminate|].
      cbn [hd_error map] in *. congruence.
    + apply sorted_map; auto. intros x. apply coord_pt.
  - exists c, (map (pt t v) r). split; [|reflexivity]. inversion S as [|? ? ? F]. inversion F. auto.
Qed.
Lemma const_fun : forall t v w l, const t v l -> const t w l -> v = w.
Proof.
  intros t v w l A B. apply const_iff in A. apply const_iff in B. destruct A as (N & A), B as (_ & B).
  destruct l as [|p l]; [congruence|]. rewrite <- (A p), <- (B p); simpl; auto.
Qed.
Lemma not_other : forall t a b d v w, 0 < d -> a < b - eps -> ~ const (other t) w (line_at t a b d v).
Proof.
  intros t a b d v w D H C. destruct (line_facts t a b d v D H) as (_ & _ & c & r & L & E). rewrite E in C.
  apply const_iff in C. destruct C as (_ & C).
  pose proof (C _ (or_introl eq_refl)) as X. pose proof (C _ (or_intror (or_introl eq_refl))) as Y.
  rewrite (proj2 (coord_pt t v a)) in X. rewrite (proj2 (coord_pt t v c)) in Y. lra.
Qed.

(** what the net of [setGraticule] consists of *)
Definition meridian_values (lon : R) : list R := filter (far 90) (major (-180) 180 lon).
Lemma lines_value : forall lon lat, 0 < lon -> 0 < lat <= 90 ->
  lines (setGraticule lon lat) =
  (map (line_at Lon (-90 + tiny) (90 - tiny) 90) (major (-180) 180 90) ++
   map (line_at Lat (-180) 180 precision) (major (-90 + tiny) (90 - tiny) lat) ++
   map (line_at Lon (-90 + lat - tiny) (90 - lat + tiny) 90) (meridian_values lon))%list.
Proof.
  intros lon lat L A. unfold setGraticule, ordered, tiny. destruct (Rlt_dec _ _); [lra|]. destruct (Rlt_dec _ _); [lra|].
  unfold lines. cbn [g_X0 g_X1 g_Y0 g_Y1 g_x0 g_x1 g_y0 g_y1 g_dx g_dy g_DX g_DY].
  assert (E : filter (far lat) (major (-90 + lat - 1 / 100000) (90 - lat + 1 / 100000) lat) = []).
  { assert (G : forall l, (forall v, In v l -> multiple lat v) -> filter (far lat) l = []).
    { induction l as [|v l IH]; intros H; [reflexivity|]. cbn [filter]. rewrite far_multiple; [|lra|apply H; left; reflexivity].
      apply IH. intros w W. apply H. right. exact W. }
    apply G. intros v I. apply major_in in I; [tauto|lra]. }
  rewrite E. cbn [map]. rewrite app_nil_r. reflexivity.
Qed.
Lemma lines_in : forall lon lat l, 0 < lon -> 0 < lat <= 90 ->
  In l (lines (setGraticule lon lat)) <->
  (exists v, multiple 90 v /\ -180 <= v < 180 /\ l = line_at Lon (-90 + tiny) (90 - tiny) 90 v) \/
  (exists v, multiple lat v /\ -90 + tiny <= v < 90 - tiny /\ l = line_at Lat (-180) 180 precision v) \/
  (exists v, (multiple lon v /\ -180 <= v < 180 /\ far 90 v = true) /\ l = line_at Lon (-90 + lat - tiny) (90 - lat + tiny) 90 v).
Proof.
  intros lon lat l L A. rewrite lines_value by auto. rewrite !in_app_iff, !in_map_iff. unfold meridian_values. split.
  - intros [(v & E & I)|[(v & E & I)|(v & E & I)]].
    + apply major_in in I; [|lra]. left. exists v. intuition auto.
    + apply major_in in I; [|lra]. right. left. exists v. intuition auto.
    + apply filter_In in I. destruct I as (I & F). apply major_in in I; [|lra]. right. right. exists v. intuition auto.
  - intros [(v & M & I & E)|[(v & M & I & E)|(v & (M & I & F) & E)]].
    + left. exists v. split; auto. apply major_in; [lra|]. auto.
    + right. left. exists v. split; auto. apply major_in; [lra|]. auto.
    + right. right. exists v. split; auto. apply filter_In. split; auto. apply major_in; auto.
Qed.
Lemma line_at_inj : forall t a b d v w a' b', 0 < d -> a < b - eps -> a' < b' - eps -> line_at t a b d v = line_at t a' b' d w -> v = w.
Proof.
  intros t a b d v w a' b' D H H' E. pose proof (proj1 (line_facts t a b d v D H)) as F.
  pose proof (proj1 (line_facts t a' b' d w D H')) as F'. rewrite E in F. eapply const_fun; eauto.
Qed.
Ltac ranges := unfold eps, tiny, precision in *; lra.

(** The meridians are at the multiples of 90 and the given multiples that are no
    multiples of 90, from -180 but without 180; the parallels at the given multiples
    between the poles. Every line is one or the other, and none is there twice. *)
Theorem C213_lines : forall lon lat, 0 < lon -> 0 < lat <= 90 ->
  let ls := lines (setGraticule lon lat) in
  (forall v, (exists l, In l ls /\ meridian v l) <->
     -180 <= v < 180 /\ (multiple 90 v \/ multiple lon v /\ exists r, remainder v 90 r /\ 1 / 1000000 < Rabs r)) /\
  (forall v, (exists l, In l ls /\ parallel v l) <-> -90 + 1 / 100000 <= v < 90 - 1 / 100000 /\ multiple lat v) /\
  (forall l, In l ls -> (exists v, meridian v l) \/ (exists v, parallel v l)) /\
  (forall l v w, In l ls -> meridian v l -> ~ parallel w l) /\
  NoDup ls /\
  (forall l m v, In l ls -> In m ls -> meridian v l -> meridian v m -> l = m) /\
  (forall l m v, In l ls -> In m ls -> parallel v l -> parallel v m -> l = m).
Proof.
  intros lon lat L A ls.
  assert (I : forall l, In l ls <-> _) by (intros l; apply (lines_in lon lat l L A)).
  assert (FX : forall v, _) by (intros v; exact (line_facts Lon (-90 + tiny) (90 - tiny) 90 v ltac:(lra) ltac:(ranges))).
  assert (FY : forall v, _) by (intros v; exact (line_facts Lat (-180) 180 precision v ltac:(ranges) ltac:(ranges))).
  assert (Fx : forall v, _) by (intros v; exact (line_facts Lon (-90 + lat - tiny) (90 - lat + tiny) 90 v ltac:(lra) ltac:(ranges))).
  assert (NX : forall v w, _) by (intros v w; exact (not_other Lon (-90 + tiny) (90 - tiny) 90 v w ltac:(lra) ltac:(ranges))).
  assert (NY : forall v w, _) by (intros v w; exact (not_other Lat (-180) 180 precision v w ltac:(ranges) ltac:(ranges))).
  assert (Nx : forall v w, _) by (intros v w; exact (not_other Lon (-90 + lat - tiny) (90 - lat + tiny) 90 v w ltac:(lra) ltac:(ranges))).
  cbn [other const] in *.
  assert (far_no : forall v, multiple 90 v -> far 90 v = true -> False) by (intros v M F; rewrite far_multiple in F; [discriminate|lra|exact M]).
  split; [|split; [|split; [|split; [|split; [|split]]]]].
  - intros v. split.
    + intros (l & J & M). apply I in J. destruct J as [(w & W & B & E)|[(w & W & B & E)|(w & (W & B & F) & E)]]; subst l.
      * rewrite (const_fun Lon _ _ _ M (proj1 (FX w))). auto.
      * exfalso. eapply NY; eauto.
      * rewrite (const_fun Lon _ _ _ M (proj1 (Fx w))). split; auto. right. split; auto. apply far_spec in F; [exact F|lra].
    + intros (B & [M|(M & F)]).
      * eexists. split; [apply I; left; exists v; split; [exact M|split; [exact B|reflexivity]]|]. apply FX.
      * eexists. split; [apply I; right; right; exists v; split; [split; [exact M|split; [exact B|apply far_spec; [lra|exact F]]]|reflexivity]|]. apply Fx.
  - intros v. split.
    + intros (l & J & M). apply I in J. destruct J as [(w & W & B & E)|[(w & W & B & E)|(w & (W & B & F) & E)]]; subst l.
      * exfalso. eapply NX; eauto.
      * rewrite (const_fun Lat _ _ _ M (proj1 (FY w))). auto.
      * exfalso. eapply Nx; eauto.
    + intros (B & M). eexists. split; [apply I; right; left; exists v; split; [exact M|split; [exact B|reflexivity]]|]. apply FY.
  - intros l J. apply I in J. destruct J as [(w & W & B & E)|[(w & W & B & E)|(w & (W & B & F) & E)]]; subst l.
    + left. exists w. apply FX.
    + right. exists w. apply FY.
    + left. exists w. apply Fx.
  - intros l v w J M P. apply I in J. destruct J as [(x & W & B & E)|[(x & W & B & E)|(x & (W & B & F) & E)]]; subst l.
    + eapply NX; eauto.
    + eapply NY; eauto.
    + eapply Nx; eauto.
  - unfold ls. rewrite lines_value by auto. apply NoDup_app_intro.
    + apply NoDup_map_inj; [|apply major_nodup; lra]. intros x y _ _ E. eapply line_at_inj in E; auto; ranges.
    + apply NoDup_app_intro.
      * apply NoDup_map_inj; [|apply major_nodup; lra]. intros x y _ _ E. eapply line_at_inj in E; auto; ranges.
      * apply NoDup_map_inj; [|apply NoDup_filter; apply major_nodup; lra]. intros x y _ _ E. eapply line_at_inj in E; auto; ranges.
      * intros l H1 H2. apply in_map_iff in H1, H2. destruct H1 as (x & <- & _), H2 as (y & E & _).
        apply (NY x y). rewrite <- E. apply Fx.
    + intros l H1 H2. apply in_app_iff in H2. apply in_map_iff in H1. destruct H1 as (x & <- & X).
      apply major_in in X; [|lra]. destruct H2 as [H2|H2]; apply in_map_iff in H2; destruct H2 as (y & E & Y).
      * apply (NY y x). rewrite E. apply FX.
      * apply filter_In in Y. destruct Y as (_ & Y). apply line_at_inj in E; [|ranges..]. subst y. eapply far_no; eauto. tauto.
  - intros l m v J K M N. apply I in J, K.
    destruct J as [(x & W & B & E)|[(x & W & B & E)|(x & (W & B & F) & E)]];
    destruct K as [(y & W' & B' & E')|[(y & W' & B' & E')|(y & (W' & B' & F') & E')]]; subst l m;
    try (exfalso; eapply NY; eassumption).
    + rewrite (const_fun Lon _ _ _ (proj1 (FX x)) M), (const_fun Lon _ _ _ (proj1 (FX y)) N). reflexivity.
    + exfalso. rewrite (const_fun Lon _ _ _ (proj1 (FX x)) M) in W. rewrite (const_fun Lon _ _ _ (proj1 (Fx y)) N) in F'. eauto.
    + exfalso. rewrite (const_fun Lon _ _ _ (proj1 (Fx x)) M) in F. rewrite (const_fun Lon _ _ _ (proj1 (FX y)) N) in W'. eauto.
    + rewrite (const_fun Lon _ _ _ (proj1 (Fx x)) M), (const_fun Lon _ _ _ (proj1 (Fx y)) N). reflexivity.
  - intros l m v J K M N. apply I in J, K.
    destruct J as [(x & W & B & E)|[(x & W & B & E)|(x & (W & B & F) & E)]]; subst l; try (exfalso; first [eapply NX; eassumption|eapply Nx; eassumption]).
    destruct K as [(y & W' & B' & E')|[(y & W' & B' & E')|(y & (W' & B' & F') & E')]]; subst m; try (exfalso; first [eapply NX; eassumption|eapply Nx; eassumption]).
    rewrite (const_fun Lat _ _ _ (proj1 (FY x)) M), (const_fun Lat _ _ _ (proj1 (FY y)) N). reflexivity.
Qed.

(** A meridian at a multiple of 90 runs to the poles, any other stops a step before
    them, and a parallel goes all the way round. The default net is that of 10 and 10. *)
Theorem C213_extent : forall lon lat, 0 < lon -> 0 < lat <= 90 ->
  let ls := lines (setGraticule lon lat) in
  (forall l v, In l ls -> meridian v l -> multiple 90 v -> runs snd (-90 + 1 / 100000) (90 - 1 / 100000) l) /\
  (forall l v, In l ls -> meridian v l -> ~ multiple 90 v -> runs snd (-90 + lat - 1 / 100000) (90 - lat + 1 / 100000) l) /\
  (forall l v, In l ls -> parallel v l -> runs fst (-180) 180 l) /\
  defaultGraticule = setGraticule 10 10.
Proof.
  intros lon lat L A ls.
  assert (I : forall l, In l ls <-> _) by (intros l; apply (lines_in lon lat l L A)).
  assert (FX : forall v, _) by (intros v; exact (line_facts Lon (-90 + tiny) (90 - tiny) 90 v ltac:(lra) ltac:(ranges))).
  assert (FY : forall v, _) by (intros v; exact (line_facts Lat (-180) 180 precision v ltac:(ranges) ltac:(ranges))).
  assert (Fx : forall v, _) by (intros v; exact (line_facts Lon (-90 + lat - tiny) (90 - lat + tiny) 90 v ltac:(lra) ltac:(ranges))).
  assert (NX : forall v w, _) by (intros v w; exact (not_other Lon (-90 + tiny) (90 - tiny) 90 v w ltac:(lra) ltac:(ranges))).
  assert (NY : forall v w, _) by (intros v w; exact (not_other Lat (-180) 180 precision v w ltac:(ranges) ltac:(ranges))).
  assert (Nx : forall v w, _) by (intros v w; exact (not_other Lon (-90 + lat - tiny) (90 - lat + tiny) 90 v w ltac:(lra) ltac:(ranges))).
  cbn [other const] in *.
  split; [|split; [|split]].
  - intros l v J M Q. apply I in J. destruct J as [(x & W & B & E)|[(x & W & B & E)|(x & (W & B & F) & E)]]; subst l.
    + apply FX.
    + exfalso. eapply NY; eauto.
    + exfalso. rewrite <- (const_fun Lon _ _ _ M (proj1 (Fx x))), far_multiple in F; [discriminate|lra|exact Q].
  - intros l v J M Q. apply I in J. destruct J as [(x & W & B & E)|[(x & W & B & E)|(x & (W & B & F) & E)]]; subst l.
    + exfalso. apply Q. rewrite (const_fun Lon _ _ _ M (proj1 (FX x))). exact W.
    + exfalso. eapply NY; eauto.
    + apply Fx.
  - intros l v J M. apply I in J. destruct J as [(x & W & B & E)|[(x & W & B & E)|(x & (W & B & F) & E)]]; subst l.
    + exfalso. eapply NX; eauto.
    + apply FY.
    + exfalso. eapply Nx; eauto.
  - unfold defaultGraticule, setGraticule, ordered, tiny. repeat (destruct (Rlt_dec _ _); [lra|]). f_equal; lra.
Qed.

(** A parallel is a chain of 145 points every two and a half degrees; a meridian has no
    more than three points, unless the spacing is below a hundred thousandth of a degree. *)
Theorem C213_points : forall lon lat, 0 < lon -> 0 < lat <= 90 ->
  let ls := lines (setGraticule lon lat) in
  (forall l v, In l ls -> parallel v l -> forall x, In (x, v) l <-> exists k, (k <= 144)%nat /\ x = -180 + INR k * (5 / 2)) /\
  (1 / 100000 <= lat -> forall l v, In l ls -> meridian v l -> (length l <= 3)%nat).
Proof.
  intros lon lat L A ls.
  assert (I : forall l, In l ls <-> _) by (intros l; apply (lines_in lon lat l L A)).
  assert (FY : forall v, _) by (intros v; exact (line_facts Lat (-180) 180 precision v ltac:(ranges) ltac:(ranges))).
  assert (NX : forall v w, _) by (intros v w; exact (not_other Lon (-90 + tiny) (90 - tiny) 90 v w ltac:(lra) ltac:(ranges))).
  assert (NY : forall v w, _) by (intros v w; exact (not_other Lat (-180) 180 precision v w ltac:(ranges) ltac:(ranges))).
  assert (Nx : forall v w, _) by (intros v w; exact (not_other Lon (-90 + lat - tiny) (90 - lat + tiny) 90 v w ltac:(lra) ltac:(ranges))).
  cbn [other const] in *.
  assert (S3 : forall a b, b - eps - a < 180 -> (length (steps a b 90) <= 3)%nat).
  { intros a b H. unfold steps, sequence. rewrite app_length, map_length, seq_length. cbn [length].
    destruct (le_lt_dec (Z.to_nat (ceilZ ((b - eps - a) / 90))) 2) as [G|G]; [lia|exfalso].
    apply below_ceil in G. cbn [INR] in G. lra. }
  split.
  - intros l v J M. apply I in J. destruct J as [(x & W & B & E)|[(x & W & B & E)|(x & (W & B & F) & E)]]; subst l.
    + exfalso. eapply NX; eauto.
    + intros y. rewrite <- (const_fun Lat _ _ _ M (proj1 (FY x))). rewrite line_at_map, in_map_iff. unfold steps. split.
      * intros (c & E & H). injection E as <-. apply in_app_iff in H. destruct H as [H|[<-|[]]].
        { apply sequence_in in H; [|ranges]. destruct H as (i & E & H). exists i. unfold precision in E. split; [|exact E].
          assert (INR i < INR 144); [|apply INR_lt in H0; lia]. replace (INR 144) with 144 by (rewrite INR_IZR_INZ; reflexivity). ranges. }
        { exists 144%nat. split; [lia|]. replace (INR 144) with 144 by (rewrite INR_IZR_INZ; reflexivity). lra. }
      * intros (k & H & E). exists y. split; [reflexivity|]. apply in_app_iff. destruct (Nat.eq_dec k 144) as [->|N].
        { right. left. replace (INR 144) with 144 in E by (rewrite INR_IZR_INZ; reflexivity). lra. }
        { left. apply sequence_in; [ranges|]. exists k. split; [exact E|].
          assert (G : INR k <= INR 143) by (apply le_INR; lia). replace (INR 143) with 143 in G by (rewrite INR_IZR_INZ; reflexivity). ranges. }
    + exfalso. eapply Nx; eauto.
  - intros T l v J M. apply I in J. destruct J as [(x & W & B & E)|[(x & W & B & E)|(x & (W & B & F) & E)]]; subst l.
    + rewrite line_at_map, map_length. apply S3. ranges.
    + exfalso. eapply NY; eauto.
    + rewrite line_at_map, map_length. apply S3. ranges.
Qed.

(** If the spacing divides 90, the meridians are at its multiples. *)
Theorem C213_even : forall lon lat m, 1 / 1000000 < lon -> 0 < lat <= 90 -> 90 = INR m * lon ->
  forall v, (exists l, In l (lines (setGraticule lon lat)) /\ meridian v l) <-> -180 <= v < 180 /\ multiple lon v.
Proof.
  intros lon lat m L A D v. destruct (C213_lines lon lat ltac:(lra) A) as (C & _). rewrite C. clear C. split.
  - intros (B & [(k & E)|(M & _)]); split; auto. exists (k * Z.of_nat m)%Z. rewrite mult_IZR, <- INR_IZR_INZ, Rmult_assoc, <- D. exact E.
  - intros (B & M). split; auto. pose proof (rem_spec v 90 ltac:(lra)) as S. set (r := js_rem v 90) in *. clearbody r.
    destruct (Req_dec r 0) as [Z|Z].
    + left. destruct S as ((k & E) & _). exists k. lra.
    + right. split; auto. exists r. split; auto. destruct (Rlt_le_dec (Rabs r) lon) as [X|X]; [|lra].
      exfalso. apply Z. apply (small_multiple lon); auto; [lra|]. destruct M as (j & M), S as ((k & E) & _).
      exists (j - k * Z.of_nat m)%Z. rewrite minus_IZR, mult_IZR, <- INR_IZR_INZ.
      replace ((IZR j - IZR k * INR m) * lon) with (IZR j * lon - IZR k * (INR m * lon)) by ring. rewrite <- D. lra.
Qed.

(** * the labels *)
Lemma chosen_in : forall t ls, (forall l, In l ls -> (exists a b d v, 0 < d /\ a < b - eps /\ (l = line_at t a b d v \/ l = line_at (other t) a b d v))) ->
  exists vs, chosen t ls = Ok vs /\ (forall l, In l vs <-> In l ls /\ exists v, const t v l) /\ (NoDup ls -> NoDup vs).
Proof.
  intros t. induction ls as [|l ls IH]; intros H.
  - exists []. split; [reflexivity|]. split; [|auto]. intros l. split; [intros []|intros ([] & _)].
  - destruct IH as (vs & E & V & N); [intros x X; apply H; right; exact X|].
    destruct (H l (or_introl eq_refl)) as (a & b & d & v & D & AB & K).
    destruct K as [K|K].
    + destruct (line_facts t a b d v D AB) as (C & _ & c & r & _ & F). rewrite <- K in C, F.
      exists (l :: vs). rewrite F at 1. cbn [chosen]. rewrite E. cbn [rbind].
      rewrite (proj1 (coord_pt t v a)), (proj1 (coord_pt t v c)). destruct (Req_EM_T v v) as [_|X]; [|congruence].
      rewrite <- F. split; [reflexivity|]. split.
      * intros x. cbn [In]. rewrite V. split; [|tauto]. intros [X|X]; [|tauto]. subst x. split; [tauto|]. exists v. exact C.
      * intros ND. inversion ND; subst. constructor; auto. rewrite V. tauto.
    + destruct (line_facts (other t) a b d v D AB) as (C & _ & c & r & L & F). rewrite <- K in C, F.
      exists vs. rewrite F at 1. cbn [chosen]. rewrite E. cbn [rbind].
      assert (OO : forall q, coord t (pt (other t) v q) = q) by (intros q; destruct t; reflexivity).
      rewrite !OO. destruct (Req_EM_T a c) as [X|_]; [lra|]. split; [reflexivity|]. split.
      * intros x. cbn [In]. rewrite V. split; [tauto|]. intros ([X|X] & Y); [|tauto]. subst x. exfalso. destruct Y as (w & Y).
        apply (not_other (other t) a b d v w D AB). rewrite <- K. destruct t; exact Y.
      * intros ND. inversion ND; subst. auto.
Qed.
Lemma net_chosen : forall lon lat t, 0 < lon -> 0 < lat <= 90 ->
  exists vs, chosen t (lines (setGraticule lon lat)) = Ok vs /\
    (forall l, In l vs <-> In l (lines (setGraticule lon lat)) /\ exists v, const t v l) /\ NoDup vs.
Proof.
  intros lon lat t L A. destruct (chosen_in t (lines (setGraticule lon lat))) as (vs & E & V & N).
  - intros l J. apply (lines_in lon lat l L A) in J. destruct J as [(x & W & B & E)|[(x & W & B & E)|(x & (W & B & F) & E)]].
    + do 4 eexists. split; [|split]; [| |destruct t; cbn [other]; [left|right]; exact E]; ranges.
    + do 4 eexists. split; [|split]; [| |destruct t; cbn [other]; [right|left]; exact E]; ranges.
    + do 4 eexists. split; [|split]; [| |destruct t; cbn [other]; [left|right]; exact E]; ranges.
  - exists vs. split; [exact E|]. split; [exact V|]. apply N. destruct (C213_lines lon lat L A) as (_ & _ & _ & _ & X & _). exact X.
Qed.
(** The test on the first two points picks out the meridians, or the parallels, and
    never reads a missing point. *)
Theorem C213_chosen : forall lon lat, 0 < lon -> 0 < lat <= 90 ->
  let ls := lines (setGraticule lon lat) in
  exists ms ps, chosen Lon ls = Ok ms /\ chosen Lat ls = Ok ps /\ NoDup ms /\ NoDup ps /\
    (forall l, In l ms <-> In l ls /\ exists v, meridian v l) /\
    (forall l, In l ps <-> In l ls /\ exists v, parallel v l) /\
    (forall l, In l ls -> (In l ms /\ ~ In l ps) \/ (In l ps /\ ~ In l ms)).
Proof.
  intros lon lat L A ls. destruct (net_chosen lon lat Lon L A) as (ms & E1 & V1 & N1). destruct (net_chosen lon lat Lat L A) as (ps & E2 & V2 & N2).
  destruct (C213_lines lon lat L A) as (_ & _ & K & X & _). fold ls in E1, V1, E2, V2, K, X.
  exists ms, ps. repeat (split; [assumption|]). cbn [const] in *. intros l J. rewrite V1, V2. destruct (K l J) as [(v & M)|(v & M)].
  - left. split; [eauto|]. intros (_ & w & P). eapply X; eauto.
  - right. split; [eauto|]. intros (_ & w & P). eapply X; eauto.
Qed.
(** One line with a single point is enough for an exception. *)
Lemma chosen_raises : forall t ls, (exists l, In l ls /\ (List.length l < 2)%nat) -> exists e, chosen t ls = Raise e.
Proof.
  intros t. induction ls as [|l ls IH]; intros (x & I & N); [destruct I|].
  destruct l as [|p [|q r]]; cbn [chosen]; eauto. destruct I as [I|I]; [subst x; cbn [List.length] in N; lia|].
  destruct IH as (e & E); [eauto|]. rewrite E. cbn [rbind]. eauto.
Qed.

Section Labels.
  Context {path shape point : Type}.
  Variable draw : line -> option path.
  Variable intersect : path -> shape -> list point.
  Lemma tagged_in : forall t s ls q v, In (q, v) (tagged draw intersect t s ls) <->
    exists l p, In l ls /\ draw l = Some p /\ In q (intersect p s) /\ v = coord t (hd (0, 0) l).
  Proof.
    intros t s ls q v. induction ls as [|l ls IH]; cbn [tagged].
    - split; [intros []|intros (l & p & [] & _)].
    - rewrite in_app_iff, IH. split.
      + intros [H|(l' & p & I & X)]; [|exists l', p; split; [right; exact I|exact X]].
        destruct (draw l) as [p|] eqn:E; [|destruct H]. apply in_map_iff in H. destruct H as (q' & F & I). inversion F; subst.
        exists l, p. simpl. auto.
      + intros (l' & p & [I|I] & E & J & V); [left|right; eauto 8]. subst l'. rewrite E. apply in_map_iff. exists q. subst v. auto.
  Qed.
  (** A label stands where a drawn line of the net crosses the frame and has the
      longitude, or latitude, of that line; none is missing, except for lines the parser
      refuses. *)
Theorem C213_labels : forall lon lat s, 0 < lon -> 0 < lat <= 90 ->
    let ls := lines (setGraticule lon lat) in
    exists az dips, getIntersections draw intersect Lon s (setGraticule lon lat) = Ok az /\
      getIntersections draw intersect Lat s (setGraticule lon lat) = Ok dips /\
      (forall q v, In (q, v) az <-> exists l p, In l ls /\ meridian v l /\ draw l = Some p /\ In q (intersect p s)) /\
      (forall q v, In (q, v) dips <-> exists l p, In l ls /\ parallel v l /\ draw l = Some p /\ In q (intersect p s)).
  Proof.
    intros lon lat s L A ls. 
    assert (G : forall t, exists r, getIntersections draw intersect t s (setGraticule lon lat) = Ok r /\
      forall q v, In (q, v) r <-> exists l p, In l ls /\ const t v l /\ draw l = Some p /\ In q (intersect p s)).
    { intros t. destruct (net_chosen lon lat t L A) as (vs & E & V & _). exists (tagged draw intersect t s vs).
      unfold getIntersections. rewrite E. split; [reflexivity|]. intros q v. rewrite tagged_in.
      assert (H : forall l w, const t w l -> coord t (hd (0, 0) l) = w).
      { intros l w C. apply const_iff in C. destruct C as (N & C). destruct l as [|p l]; [congruence|]. apply C. left. reflexivity. }
      split.
      - intros (l & p & I & D & J & F). apply V in I. destruct I as (I & w & C). rewrite (H l w C) in F. subst w. exists l, p. auto.
      - intros (l & p & I & C & D & J). exists l, p. split; [apply V; eauto|]. split; [exact D|]. split; [exact J|]. symmetry. apply H. exact C. }
    destruct (G Lon) as (az & E1 & H1), (G Lat) as (dips & E2 & H2). exists az, dips. cbn [const] in *. auto.
  Qed.
End Labels.

(** Dips are labelled with the complement of the latitude: right for lines above the
    equator, over 90 below it. *)
Theorem C213_dips : forall lon lat, 0 < lon -> 0 < lat < 90 - 1 / 100000 ->
  let ls := lines (setGraticule lon lat) in
  (forall show l v, In l ls -> parallel v l -> 0 <= v -> exists dip, dip_label show v = show dip /\ 0 < dip <= 90 /\ v = 90 - dip) /\
  (exists l v, In l ls /\ parallel v l /\ forall show, exists dip, dip_label show v = show dip /\ 90 < dip).
Proof.
  intros lon lat L A ls. destruct (C213_lines lon lat L ltac:(lra)) as (_ & P & _). fold ls in P. split.
  - intros show l v I M V. exists (90 - v). split; [reflexivity|].
    assert (B : -90 + 1 / 100000 <= v < 90 - 1 / 100000 /\ multiple lat v) by (apply P; eauto). lra.
  - assert (B : exists l, In l ls /\ parallel (- lat) l).
    { apply P. split; [lra|]. exists (-1)%Z. simpl. lra. }
    destruct B as (l & I & M). exists l, (- lat). split; [exact I|]. split; [exact M|]. intros show. exists (90 - - lat). split; [reflexivity|lra].
Qed.

Example C213_ex :
  (exists l, In l (lines defaultGraticule) /\ meridian (-180) l) /\ ~ (exists l, In l (lines defaultGraticule) /\ meridian 180 l) /\
  (exists l, In l (lines defaultGraticule) /\ parallel (-80) l) /\ (exists l, In l (lines (setGraticule 25 10)) /\ meridian (-175) l) /\
  (exists l, In l (lines (setGraticule 25 10)) /\ meridian (-180) l).
Proof.
  assert (E : defaultGraticule = setGraticule 10 10) by (apply (C213_extent 10 10); lra). rewrite E.
  destruct (C213_lines 10 10) as (M & P & _); [lra|lra|]. destruct (C213_lines 25 10) as (M' & _); [lra|lra|].
  split; [|split; [|split; [|split]]].
  - apply M. split; [lra|]. left. exists (-2)%Z. lra.
  - intros H. apply M in H. lra.
  - apply P. split; [lra|]. exists (-8)%Z. lra.
  - apply M'. split; [lra|]. right. split; [exists (-7)%Z; lra|]. exists (-85). split; [|rewrite Rabs_left; lra].
    split; [exists (-1)%Z; lra|]. rewrite Rabs_left by lra. lra.
  - apply M'. split; [lra|]. left. exists (-2)%Z. lra.
Qed.

Print Assumptions C213_lines.
Print Assumptions C213_extent.
Print Assumptions C213_points.
Print Assumptions C213_even.
Print Assumptions C213_chosen.
Print Assumptions C213_labels.
Print Assumptions C213_dips.
