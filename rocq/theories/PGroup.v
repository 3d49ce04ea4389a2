(** Properties C43-C52 and C93: grouped orientations. *)
From Coq Require Import Reals Lra List Arith Lia Bool.
From Verif Require Import RVec SpecPlane MPca LSvd LPca LFit LFit2 LExamples MGroup LGroup LGroup2 PPca.
Import ListNotations.
Open Scope nat_scope.

(** ** C43, C44: the fit of a group.  [made]: the attribute [arr] of a fit is its
    centred array; C51 shows that every reachable object satisfies it. *)
Definition made (o : obj) : Prop := p_arr (o_fit o) = centered (p_array (o_fit o)).
Definition points (os : list obj) : list vec3 := concat (map (fun o => p_array (o_fit o)) os).

Theorem C43_offsets : forall svd w os os', Forall made os -> Forall made os' ->
  Forall2 (fun o o' => exists t, p_array (o_fit o') = map (vadd t) (p_array (o_fit o))) os os' ->
  (forall e, group_fit svd false w os = Raise e -> group_fit svd false w os' = Raise e) /\
  (forall f, group_fit svd false w os = Ok f -> exists f', group_fit svd false w os' = Ok f' /\
     p_axes f' = p_axes f /\ p_s f' = p_s f /\ p_normal f' = p_normal f /\ p_n f' = p_n f /\
     strike_dip f' = strike_dip f /\ rake f' = rake f /\ eigenvalues f' = eigenvalues f /\
     residuals f' = residuals f /\ rotated f' = rotated f /\ principal_axes f' = principal_axes f).
Proof.
  intros svd w os os' M M' H.
  assert (E : group_array false os' = group_array false os).
  { unfold group_array. induction H as [|o o' os os' (t & Ht) H IH]; simpl; auto.
    inversion M; inversion M'; subst. rewrite IH by auto. f_equal.
    unfold centered_array. unfold made in *.
    match goal with A : p_arr (o_fit o) = _, B : p_arr (o_fit o') = _ |- _ => rewrite A, B end.
    now rewrite Ht, centered_shift. }
  unfold group_fit. rewrite E.
  destruct (PCAOrientation svd (group_array false os) w None) as [f0|e0|]; simpl; split; intros x Hx; try discriminate; auto.
  injection Hx as <-. eexists. split; [reflexivity|]. repeat split; reflexivity.
Qed.
Theorem C43_centre : forall svd same w os f m, group_fit svd same w os = Ok f ->
  (center f = Some m <-> is_mean m (points os)).
Proof.
  intros svd same w os f m H. unfold group_fit in H.
  destruct (PCAOrientation svd (group_array same os) w None); simpl in H; try discriminate.
  injection H as <-. unfold center; simpl. apply np_mean_spec.
Qed.

(** cost of parallel planes n.x = d_i, one per member *)
Definition parallel_cost (n : vec3) (ds : list R) (os : list obj) : R :=
  sumf (fun '(d, o) => sum_sq_dist n d (p_array (o_fit o))) (combine ds os).
Lemma parallel_split : forall n os ms, Forall made os ->
  Forall2 (fun m o => is_mean m (p_array (o_fit o))) ms os ->
  parallel_cost n (map (dot n) ms) os = Q (group_array false os) n n.
Proof.
  intros n os ms M H. unfold parallel_cost, group_array. induction H as [|m o ms os Hm H IH]; simpl; auto.
  inversion M; subst. rewrite IH by auto. unfold Q. rewrite sumf_app. f_equal.
  rewrite (ssd_split n (dot n m) m) by auto. unfold Q, centered_array.
  match goal with A : made o |- _ => rewrite A end. ring.
Qed.
Lemma parallel_lower : forall n os ds, Forall made os ->
  Forall (fun o => p_array (o_fit o) <> []) os -> length ds = length os ->
  (Q (group_array false os) n n <= parallel_cost n ds os)%R.
Proof.
  intros n os. unfold parallel_cost, group_array. induction os as [|o os IH]; intros ds M NE L.
  - unfold Q. destruct ds; simpl; lra.
  - destruct ds as [|d ds]; [discriminate|]. inversion M; inversion NE; subst. simpl.
    unfold Q in *. rewrite sumf_app. apply Rplus_le_compat.
    + destruct (mean_exists (p_array (o_fit o))) as [m Hm]; auto.
      rewrite (ssd_split n d m) by auto. unfold Q, centered_array.
      match goal with A : made o |- _ => rewrite A end.
      pose proof (pos_INR (length (p_array (o_fit o)))) as Hp.
      pose proof (Rmult_le_pos _ _ Hp (Rle_0_sqr (dot n m - d))) as Hq. unfold Rsqr in Hq. lra.
    + apply IH; auto.
Qed.
Lemma means_exist : forall os, Forall (fun o => p_array (o_fit o) <> []) os ->
  exists ms, Forall2 (fun m o => is_mean m (p_array (o_fit o))) ms os.
Proof.
  intros os H. induction H as [|o os Ho H (ms & IH)].
  - exists []. constructor.
  - destruct (mean_exists (p_array (o_fit o)) Ho) as [m Hm]. exists (m :: ms). constructor; auto.
Qed.
Lemma group_sum : forall os, Forall made os -> vsum (group_array false os) = vzero.
Proof.
  intros os M. unfold group_array. induction M as [|o os Ho M IH]; simpl.
  - reflexivity.
  - unfold vsum in *. rewrite !sumf_app. injection IH as -> -> ->.
    unfold centered_array. rewrite Ho. pose proof (centered_sum (p_array (o_fit o))) as Z.
    unfold vsum, vzero in Z. injection Z as -> -> ->. unfold vzero. f_equal; ring.
Qed.
Theorem C44_parallel_planes : forall svd os f, lapack svd -> Forall made os ->
  Forall (fun o => p_array (o_fit o) <> []) os -> group_fit svd false None os = Ok f ->
  unit3 (p_normal f) /\
  exists ms, Forall2 (fun m o => is_mean m (p_array (o_fit o))) ms os /\
    forall n ds, unit3 n -> length ds = length os ->
      (parallel_cost (p_normal f) (map (dot (p_normal f)) ms) os <= parallel_cost n ds os)%R.
Proof.
  intros svd os f HL M NE H. unfold group_fit in H.
  destruct (PCAOrientation svd (group_array false os) None None) as [f0|e|] eqn:E; simpl in H; try discriminate.
  injection H as <-. change (p_normal (with_mean f0 _)) with (p_normal f0).
  destruct (tls_optimal _ _ _ HL E) as (m & _ & Hm & U & O).
  split; auto. destruct (means_exist os NE) as (ms & Hms). exists ms. split; auto.
  intros n ds Hn L. rewrite parallel_split by auto.
  eapply Rle_trans; [|apply parallel_lower; eauto].
  assert (Z : m = vzero).
  { destruct Hm as [Nn Hm]. rewrite group_sum in Hm by auto.
    assert (P : (INR (length (group_array false os)) <> 0)%R).
    { apply not_0_INR. destruct (group_array false os); [tauto | discriminate]. }
    destruct m as [a b c]. unfold vscale, vzero in *; simpl in Hm. injection Hm as A B C.
    apply Rmult_integral in A, B, C. f_equal; tauto. }
  assert (K : forall k, sum_sq_dist k (dot k m) (group_array false os) = Q (group_array false os) k k).
  { intros k. rewrite Z, dot_zero_r. unfold sum_sq_dist, Q. apply sumf_ext. intros p _. unfold sq_dist.
    rewrite (dot_comm p k). ring. }
  rewrite <- K, <- (K n). now apply O.
Qed.
(** with [same_plane=True] the group is the fit of the pooled points *)
Theorem C44_same_plane : forall svd os f, lapack svd -> group_fit svd true None os = Ok f ->
  exists m, center f = Some m /\ is_mean m (points os) /\ unit3 (p_normal f) /\
  forall n d, unit3 n ->
    (sum_sq_dist (p_normal f) (dot (p_normal f) m) (points os) <= sum_sq_dist n d (points os))%R.
Proof.
  intros svd os f HL H. unfold group_fit in H. change (group_array true os) with (points os) in H.
  destruct (PCAOrientation svd (points os) None None) as [f0|e|] eqn:E; simpl in H; try discriminate.
  injection H as <-. destruct (tls_optimal _ _ _ HL E) as (m & _ & Hm & U & O).
  exists m. split; [|auto]. unfold center. simpl. apply np_mean_spec. exact Hm.
Qed.
Example C44_ex : forall svd f, lapack svd -> PCAOrientation svd tilted_data None None = Ok f ->
  made (fresh f) /\ exists g, group_fit svd false None [fresh f; fresh f] = Ok g.
Proof.
  intros svd f HL H. split; [exact (fit_made _ _ _ _ _ H)|].
  destruct (fit_inv _ _ _ HL H) as (Hn & _ & _ & _ & _ & _ & Ea & _).
  destruct (fit_exists svd (group_array false [fresh f; fresh f]) HL) as (g & Hg).
  - unfold group_array. simpl. rewrite app_nil_r, app_length. unfold centered_array; simpl. rewrite Ea, centered_length. lia.
  - unfold group_fit. rewrite Hg. simpl. eauto.
Qed.

(** ** C45 *)
Definition disjoint_requests (groups : list (list nat)) : Prop :=
  forall i j us vs u, nth_error groups i = Some us -> nth_error groups j = Some vs ->
    In u us -> In u vs -> i = j.
Lemma last_event_const : forall evs b q, In (b, q) evs -> (forall p, In (b, p) evs -> p = q) ->
  last_event evs b = Some q.
Proof.
  intros evs b q I U. destruct (last_event evs b) as [p|] eqn:E.
  - apply last_event_in in E. f_equal. auto.
  - apply last_event_none in E. exfalso. apply E. apply in_map_iff. exists (b, q). auto.
Qed.
Lemma Forall2_nth : forall A B (P : A -> B -> Prop) l m i b, Forall2 P l m -> nth_error m i = Some b ->
  exists a, nth_error l i = Some a /\ P a b.
Proof.
  intros A B P l m i b H. revert i. induction H as [|x y l m Hxy H IH]; intros [|i] E; simpl in *; try discriminate.
  - injection E as <-. eauto.
  - auto.
Qed.
Lemma seq_nth_error : forall n s i b, nth_error (seq s n) i = Some b -> b = s + i.
Proof.
  induction n as [|n IH]; intros s [|i] b H; simpl in *; try discriminate.
  - injection H as <-. lia.
  - apply IH in H. lia.
Qed.

(** everything a successful call guarantees, in the vocabulary of the heap *)
Lemma created : forall svd sha copy same w h os groups h' l, all_live h os ->
  create_groups svd sha copy same w h os groups = (h', l, Ok tt) ->
  exists h1 gms cs,
    h1 = apply (start_heap copy h os) (reset_events (start_heap copy h os) (base_of copy h os)) /\
    all_live h1 (base_of copy h os) /\
    l = base_of copy h os ++ seq (length h1) (length groups) /\
    Forall2 (resolves sha h1 (base_of copy h os)
               (concat (map (members_list (start_heap copy h os)) (base_of copy h os)))) groups gms /\
    Forall2 (new_cell svd same w h1) gms cs /\ Forall (fun ms => ms <> []) gms /\
    h' = apply h1 (group_events (length h1) gms) ++ cs.
Proof.
  intros svd sha copy same w h os groups h' l HL H. rewrite create_unfold in H. cbv zeta in H.
  set (h1 := apply _ _) in *.
  assert (HL1 : all_live h1 (base_of copy h os)) by (apply live_apply_all, start_live; auto).
  destruct (make_groups_ok _ _ _ _ _ _ _ _ _ _ HL1 H) as (gms & cs & E & R & N & NN & ->).
  exists h1, gms, cs. repeat split; auto.
Qed.
Lemma new_group_get : forall svd same w h1 gms cs evs i ms, Forall2 (new_cell svd same w h1) gms cs ->
  nth_error gms i = Some ms ->
  exists f, get (apply h1 evs ++ cs) (length h1 + i) = Some (mkObj f (Some ms) None false).
Proof.
  intros svd same w h1 gms cs evs i ms H E.
  assert (K : exists c, nth_error cs i = Some c /\ new_cell svd same w h1 ms c).
  { revert i E. induction H as [|x y l m Hxy H IH]; intros [|i] E; simpl in *; try discriminate.
    - injection E as <-. eauto.
    - auto. }
  destruct K as (c & Ec & ob & f & _ & _ & ->). exists f.
  unfold get. rewrite nth_error_app2, apply_length by (rewrite apply_length; lia).
  replace (length h1 + i - length h1) with i by lia. now rewrite Ec.
Qed.
Lemma uid_same : forall sha h h' a b, same_object h h' a b -> uid_of sha h' b = uid_of sha h a.
Proof. intros sha h h' a b [E _]. now rewrite !uid_fit, E. Qed.

Theorem C45_result : forall svd sha copy same w h os groups h' l, all_live h os ->
  create_groups svd sha copy same w h os groups = (h', l, Ok tt) ->
  exists base news, l = base ++ news /\
    base = (if copy then seq (length h) (length os) else os) /\
    Forall2 (same_object h h') os base /\
    Forall2 (fun us g => length h <= g /\ ~ In g base /\ parent_of h' g = None /\ disabled_of h' g = false /\
      exists ms, ms <> [] /\ members_of h' g = Some ms /\
        Forall2 (fun u m => In m base /\ is_first sha h' base u m) us ms) groups news /\
    NoDup news.
Proof.
  intros svd sha copy same w h os groups h' l HL H.
  destruct (created _ _ _ _ _ _ _ _ _ _ HL H) as (h1 & gms & cs & E1 & HL1 & -> & R & N & NN & ->).
  set (base := base_of copy h os) in *. set (h0 := start_heap copy h os) in *.
  assert (Len : length h <= length h1) by (rewrite E1, apply_length; apply start_length).
  set (evs := group_events (length h1) gms).
  assert (SO : forall a, a < length h1 -> same_object h1 (apply h1 evs ++ cs) a a).
  { intros a La. eapply same_object_trans; [apply same_object_apply|]. apply same_object_app. now rewrite apply_length. }
  assert (LB : forall b, In b base -> b < length h1) by (intros; eapply all_live_lt; eauto).
  exists base, (seq (length h1) (length groups)). split; auto. split; [reflexivity|]. split.
  { pose proof (start_copy copy h os HL) as SC. fold base h0 in SC.
    eapply Forall2_impl_in; [|exact SC]. intros a b Ia Ib G.
    eapply same_object_trans; [|apply SO; auto]. rewrite E1.
    eapply same_object_trans; [|apply same_object_apply].
    unfold same_object, fit_of, members_of, disabled_of, is_live. rewrite G. auto. }
  split; [|apply seq_NoDup].
  assert (UE : forall u m, first_with sha h1 base u = Some m -> is_first sha (apply h1 evs ++ cs) base u m).
  { intros u m F. apply first_with_iff. rewrite <- F. apply first_with_ext. intros a Ia. apply SO. auto. }
  assert (K : forall gms' groups' i, length gms' = length groups' ->
    (forall j ms, nth_error gms' j = Some ms -> nth_error gms (i + j) = Some ms) ->
    Forall2 (resolves sha h1 base (concat (map (members_list h0) base))) groups' gms' ->
    Forall (fun ms => ms <> []) gms' ->
    Forall2 (fun us g => length h <= g /\ ~ In g base /\ parent_of (apply h1 evs ++ cs) g = None /\
      disabled_of (apply h1 evs ++ cs) g = false /\
      exists ms, ms <> [] /\ members_of (apply h1 evs ++ cs) g = Some ms /\
        Forall2 (fun u m => In m base /\ is_first sha (apply h1 evs ++ cs) base u m) us ms)
      groups' (seq (length h1 + i) (length groups'))).
  { clear E1. induction gms' as [|ms gms' IH]; intros groups' i Le Nx R' NN'; inversion R' as [|us ? groups'' ? Q R'']; subst; simpl; constructor.
    - assert (Ng : nth_error gms i = Some ms) by (rewrite <- (Nat.add_0_r i); now apply Nx).
      destruct (new_group_get _ _ _ _ _ _ evs _ _ N Ng) as (f & G).
      split; [lia|]. split; [intros I; apply LB in I; lia|].
      unfold parent_of, disabled_of, members_of. rewrite G. split; auto. split; auto.
      exists ms. inversion NN'; subst. split; auto. split; auto.
      eapply Forall2_impl_in; [|exact Q]. intros u m _ _ (F & _). split; [|auto].
      apply first_with_some in F. tauto.
    - replace (S (length h1 + i)) with (length h1 + S i) by lia. apply IH; auto.
      + intros j ms' E. replace (S i + j) with (i + S j) by lia. now apply Nx.
      + now inversion NN'. }
  specialize (K gms groups 0). rewrite Nat.add_0_r in K. apply K; auto.
  clear -R. induction R; simpl; auto.
Qed.
Theorem C45_links : forall svd sha copy same w h os groups h' l, all_live h os ->
  create_groups svd sha copy same w h os groups = (h', l, Ok tt) -> disjoint_requests groups ->
  (forall g ms m, In g l -> ~ In g (firstn (length os) l) -> members_of h' g = Some ms -> In m ms ->
     parent_of h' m = Some g) /\
  (forall x g, In x l -> parent_of h' x = Some g ->
     In g l /\ exists ms, members_of h' g = Some ms /\ In x ms).
Proof.
  intros svd sha copy same w h os groups h' l HL H D.
  destruct (created _ _ _ _ _ _ _ _ _ _ HL H) as (h1 & gms & cs & E1 & HL1 & -> & R & N & NN & ->).
  set (base := base_of copy h os) in *. set (h0 := start_heap copy h os) in *.
  set (evs := group_events (length h1) gms).
  assert (BL : length base = length os).
  { unfold base, base_of. destruct copy; auto. apply seq_length. }
  assert (LB : forall b, In b base -> b < length h1) by (intros; eapply all_live_lt; eauto).
  assert (LG : length groups = length gms) by (clear -R; induction R; simpl; auto).
  assert (PG : forall x, x < length h1 -> parent_of (apply h1 evs ++ cs) x = parent_of (apply h1 evs) x).
  { intros x Lx. unfold parent_of. rewrite get_app_l; auto. now rewrite apply_length. }
  assert (RM : forall i ms m, nth_error gms i = Some ms -> In m ms ->
    exists us u, nth_error groups i = Some us /\ In u us /\ In m base /\ uid_of sha h1 m = Some u).
  { intros i ms m Ei Im. destruct (Forall2_nth _ _ _ _ _ _ _ R Ei) as (us & Eu & Q).
    destruct (Forall2_right _ _ _ _ _ _ Q Im) as (u & Iu & F & _). apply first_with_some in F.
    exists us, u. tauto. }
  split.
  - rewrite <- BL, firstn_app, Nat.sub_diag, firstn_all. simpl. rewrite app_nil_r.
    intros g ms m Ig Ng M Im. apply in_app_iff in Ig. destruct Ig as [Ig|Ig]; [tauto|].
    apply In_nth_error in Ig. destruct Ig as (i & Ei). pose proof (seq_nth_error _ _ _ _ Ei) as ->.
    assert (Li : i < length gms).
    { rewrite <- LG. rewrite <- (seq_length (length groups) (length h1)). apply nth_error_Some. congruence. }
    destruct (nth_error gms i) as [ms'|] eqn:Em; [|apply nth_error_None in Em; lia].
    destruct (new_group_get _ _ _ _ _ _ evs _ _ N Em) as (f & G).
    unfold members_of in M. rewrite G in M. injection M as <-.
    destruct (RM _ _ _ Em Im) as (us & u & Eu & Iu & Ib & U).
    rewrite PG by auto. rewrite parent_apply.
    2:{ unfold all_live in HL1. rewrite Forall_forall in HL1. auto. }
    rewrite (last_event_const evs m (Some (length h1 + i))); auto.
    + apply group_events_in. eauto 6.
    + intros p Ip. apply group_events_in in Ip. destruct Ip as (j & ms2 & m2 & Ej & Ij & E).
      injection E as <- ->. destruct (RM _ _ _ Ej Ij) as (vs & v & Ev & Iv & _ & V).
      assert (v = u) by congruence. subst v. now rewrite (D _ _ _ _ _ Eu Ev Iu Iv).
  - intros x g Ix P. apply in_app_iff in Ix. destruct Ix as [Ix|Ix].
    + rewrite PG in P by auto.
      assert (Lx : is_live h1 x) by (unfold all_live in HL1; rewrite Forall_forall in HL1; auto).
      rewrite parent_apply in P by auto. destruct (last_event evs x) as [p|] eqn:LE.
      * subst p. apply last_event_in, group_events_in in LE. destruct LE as (i & ms & m & Ei & Im & E).
        injection E as <- ->. split.
        -- apply in_app_iff. right. apply in_seq. assert (i < length gms) by (apply nth_error_Some; congruence). lia.
        -- destruct (new_group_get _ _ _ _ _ _ evs _ _ N Ei) as (f & G). exists ms. unfold members_of. rewrite G. auto.
      * rewrite E1 in P. assert (Lx0 : is_live h0 x) by (rewrite E1, live_apply in Lx; exact Lx).
        rewrite parent_apply in P by auto. destruct (last_event (reset_events h0 base) x) as [p|] eqn:LR.
        -- subst p. apply last_event_in, reset_events_in in LR. destruct LR as (o & Io & [E|(m & Im & E)]); [discriminate|].
           injection E as <- <-. split; [apply in_app_iff; auto|].
           apply members_list_in in Im. destruct Im as (ms & Em & Im). exists ms. split; auto.
           rewrite members_app_l by (rewrite apply_length; auto). now rewrite members_apply, E1, members_apply.
        -- apply last_event_none in LR. exfalso. apply LR. apply in_map_iff. exists (x, None). split; auto.
           apply reset_events_in. exists x. auto.
    + exfalso. apply In_nth_error in Ix. destruct Ix as (i & Ei). pose proof (seq_nth_error _ _ _ _ Ei) as ->.
      assert (Li : i < length gms).
      { rewrite <- LG. rewrite <- (seq_length (length groups) (length h1)). apply nth_error_Some. congruence. }
      destruct (nth_error gms i) as [ms'|] eqn:Em; [|apply nth_error_None in Em; lia].
      destruct (new_group_get _ _ _ _ _ _ evs _ _ N Em) as (f & G). unfold parent_of in P. rewrite G in P. discriminate.
Qed.
(** the numbers of each new group are those of the fit to its members *)
Theorem C45_fits : forall svd sha copy same w h os groups h' l g ms, all_live h os ->
  create_groups svd sha copy same w h os groups = (h', l, Ok tt) ->
  In g l -> ~ In g (firstn (length os) l) -> members_of h' g = Some ms ->
  exists obs f, Forall2 (fun m o => fit_of h' m = Some (o_fit o)) ms obs /\
    group_fit svd same w obs = Ok f /\ fit_of h' g = Some f.
Proof.
  intros svd sha copy same w h os groups h' l g ms HL H Ig Ng M.
  destruct (created _ _ _ _ _ _ _ _ _ _ HL H) as (h1 & gms & cs & E1 & HL1 & -> & R & N & NN & ->).
  assert (BL : length (base_of copy h os) = length os) by (unfold base_of; destruct copy; auto; apply seq_length).
  rewrite <- BL, firstn_app, Nat.sub_diag, firstn_all in Ng. simpl in Ng. rewrite app_nil_r in Ng.
  apply in_app_iff in Ig. destruct Ig as [Ig|Ig]; [tauto|].
  apply In_nth_error in Ig. destruct Ig as (i & Ei). pose proof (seq_nth_error _ _ _ _ Ei) as ->.
  assert (LG : length groups = length gms) by (clear -R; induction R; simpl; auto).
  assert (Li : i < length gms).
  { rewrite <- LG. rewrite <- (seq_length (length groups) (length h1)). apply nth_error_Some. congruence. }
  destruct (nth_error gms i) as [ms'|] eqn:Em; [|apply nth_error_None in Em; lia].
  assert (K : exists c, nth_error cs i = Some c /\ new_cell svd same w h1 ms' c).
  { clear -N Em. revert i Em. induction N as [|x y l m Hxy N IH]; intros [|i] E; simpl in *; try discriminate.
    - injection E as <-. eauto.
    - auto. }
  destruct K as (c & Ec & obs & f & F & GF & ->).
  assert (G : get (apply h1 (group_events (length h1) gms) ++ cs) (length h1 + i) = Some (mkObj f (Some ms') None false)).
  { unfold get. rewrite nth_error_app2, apply_length by (rewrite apply_length; lia).
    replace (length h1 + i - length h1) with i by lia. now rewrite Ec. }
  unfold members_of in M. rewrite G in M. injection M as <-.
  exists obs, f. split; [|split; auto].
  - eapply Forall2_impl_in; [|exact F]. intros m o Im _ Fm.
    rewrite fit_app; [rewrite fit_apply; auto|]. rewrite apply_length.
    unfold fit_of in Fm. destruct (get h1 m) eqn:Gm; [|discriminate]. eapply get_lt; eauto.
  - unfold fit_of. now rewrite G.
Qed.

Print Assumptions C43_offsets.
Print Assumptions C43_centre.
Print Assumptions C44_parallel_planes.
Print Assumptions C44_same_plane.
Print Assumptions C45_result.
Print Assumptions C45_links.
Print Assumptions C45_fits.
