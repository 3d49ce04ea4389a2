(** Properties C46-C52 and C93: failures, frames and histories of grouping. *)
From Coq Require Import Reals Lra List Arith Lia Bool.
From Verif Require Import RVec SpecPlane MPca LSvd LPca LFit2 LExamples MGroup LGroup LGroup2 LGroup3 PGroup.
Import ListNotations.
Open Scope nat_scope.

(** ** C46 *)
Theorem C46_nothing_dropped : forall svd sha copy same w h os groups h' l, all_live h os ->
  create_groups svd sha copy same w h os groups = (h', l, Ok tt) ->
  Forall2 (fun us g => exists ms, members_of h' g = Some ms /\ map (uid_of sha h') ms = map Some us)
    groups (skipn (length os) l).
Proof.
  intros svd sha copy same w h os groups h' l HL H.
  destruct (C45_result _ _ _ _ _ _ _ _ _ _ HL H) as (base & news & -> & Eb & _ & F & _).
  assert (Lb : length base = length os) by (rewrite Eb; destruct copy; auto; apply seq_length).
  rewrite <- Lb, skipn_app, skipn_all, Nat.sub_diag. simpl.
  eapply Forall2_impl_in; [|exact F]. intros us g _ _ (_ & _ & _ & _ & ms & _ & M & Q).
  exists ms. split; auto. clear -Q. induction Q as [|u m us ms (_ & l1 & l2 & _ & U & _) Q IH]; simpl; auto. now rewrite U, IH.
Qed.
Theorem C46_unknown : forall svd sha copy same w h os gs1 us1 u us2 gs2 h1 l1, all_live h os ->
  create_groups svd sha copy same w h os gs1 = (h1, l1, Ok tt) ->
  Forall (fun v => exists x, is_first sha h1 l1 v x /\
    forall g ms, In g (firstn (length os) l1) -> members_of h1 g = Some ms -> ~ In x ms) us1 ->
  (forall x, In x l1 -> uid_of sha h1 x <> Some u) ->
  create_groups svd sha copy same w h os (gs1 ++ (us1 ++ u :: us2) :: gs2) = (h1, l1, Raise KeyError).
Proof.
  intros svd sha copy same w h os gs1 us1 u us2 gs2 h1 l1 HL H P N.
  eapply create_fail_at; eauto.
  destruct (find_prefix sha h1 l1 (grouped_list copy h os) us1) as (vals & E).
  { eapply Forall_impl; [|exact P]. intros v (x & F & G). exists x. split; auto.
    rewrite (grouped_spec _ _ _ _ _ _ _ _ _ _ _ _ HL H). intros (g & ms & Ig & M & Ix). exact (G g ms Ig M Ix). }
  eapply find_all_app_raise; eauto. unfold find_uid.
  destruct (first_with sha h1 l1 u) as [x|] eqn:F; auto.
  apply first_with_some in F. exfalso. apply (N x); tauto.
Qed.
Theorem C46_only_unknown : forall svd sha copy same w h os groups h' l, all_live h os ->
  create_groups svd sha copy same w h os groups = (h', l, Raise KeyError) ->
  exists gs1 us gs2 u, groups = gs1 ++ us :: gs2 /\ In u us /\
    create_groups svd sha copy same w h os gs1 = (h', l, Ok tt) /\
    forall x, In x l -> uid_of sha h' x <> Some u.
Proof.
  intros svd sha copy same w h os groups h' l HL H.
  destruct (create_fail _ _ _ _ _ _ _ _ _ _ _ H) as (gs1 & us & gs2 & h1 & -> & C & [(F & ->)|(vals & F & G)]).
  - apply find_all_raise in F. destruct F as (us1 & u & us2 & -> & F). exists gs1, (us1 ++ u :: us2), gs2, u.
    split; auto. split; [apply in_app_iff; right; now left|]. split; auto.
    unfold find_uid in F. destruct (first_with sha h1 l u) as [x|] eqn:E.
    + destruct (existsb (Nat.eqb x) (grouped_list copy h os)); discriminate.
    + now apply first_with_none.
  - exfalso. apply group_exn in G.
    + destruct G as [(E & _)|[E|E]]; discriminate.
    + apply find_all_ok in F. destruct (create_frame _ _ _ _ _ _ _ _ _ _ _ HL C) as (_ & L & _).
      apply Forall_forall. intros v I. destruct (Forall2_right _ _ _ _ _ _ F I) as (u & _ & E & _).
      apply first_with_some in E. unfold all_live in L. rewrite Forall_forall in L. now apply L.
Qed.

(** ** C47, C48: what a call with [copy=True] does to existing objects *)
Lemma nth_start : forall h os i b, all_live h os -> nth_error (base_of true h os) i = Some b ->
  b = length h + i /\ exists a, nth_error os i = Some a /\ get (start_heap true h os) b = get h a.
Proof.
  intros h os i b HL E. pose proof (seq_nth_error _ _ _ _ E) as Eb. split; auto.
  destruct (Forall2_nth _ _ _ _ _ _ _ (start_copy true h os HL) E) as (a & Ea & G). eauto.
Qed.
Lemma old_after : forall svd sha same w h os groups h' l r a, all_live h os ->
  create_groups svd sha true same w h os groups = (h', l, r) -> a < length h ->
  nth_error h' a = match last_event (reset_events (start_heap true h os) (base_of true h os)) a with
                   | Some p => option_map (on_live (with_parent p)) (nth_error h a)
                   | None => nth_error h a
                   end.
Proof.
  intros svd sha same w h os groups h' l r a HL H La.
  destruct (create_frame _ _ _ _ _ _ _ _ _ _ _ HL H) as (_ & _ & _ & FR & _).
  rewrite FR.
  - rewrite nth_apply, start_old by auto. reflexivity.
  - rewrite apply_length. pose proof (start_length true h os). lia.
  - intros I. simpl in I. apply in_seq in I. lia.
Qed.
Lemma old_event : forall h os a p, all_live h os -> a < length h ->
  In (a, p) (reset_events (start_heap true h os) (base_of true h os)) ->
  exists i g ms, p = Some (length h + i) /\ nth_error os i = Some g /\ members_of h g = Some ms /\ In a ms.
Proof.
  intros h os a p HL La I. apply reset_events_in in I. destruct I as (o & Io & [E|(m & Im & E)]).
  - injection E as -> _. simpl in Io. apply in_seq in Io. lia.
  - injection E as <- ->. apply In_nth_error in Io. destruct Io as (i & Ei).
    destruct (nth_start _ _ _ _ HL Ei) as (-> & g & Eg & G).
    apply members_list_in in Im. destruct Im as (ms & M & Im). exists i, g, ms. repeat split; auto.
    unfold members_of in *. now rewrite <- G.
Qed.
Theorem C47_untouched : forall svd sha same w h os groups h' l r, all_live h os ->
  (forall o, In o os -> members_of h o = None) ->
  create_groups svd sha true same w h os groups = (h', l, r) ->
  (forall a, a < length h -> nth_error h' a = nth_error h a) /\
  caller_list true os (h', l, r) = os /\ (forall x, In x l -> length h <= x).
Proof.
  intros svd sha same w h os groups h' l r HL NG H. split; [|split; auto].
  - intros a La. rewrite (old_after _ _ _ _ _ _ _ _ _ _ _ HL H La).
    destruct (last_event _ a) as [p|] eqn:E; auto. apply last_event_in, old_event in E; auto.
    destruct E as (i & g & ms & _ & Eg & M & _). rewrite (NG g) in M; [discriminate|]. eapply nth_error_In; eauto.
  - destruct (create_frame _ _ _ _ _ _ _ _ _ _ _ HL H) as (_ & _ & (news & -> & N) & _).
    intros x I. apply in_app_iff in I. destruct I as [I|I].
    + simpl in I. apply in_seq in I. lia.
    + apply N in I. rewrite apply_length in I. pose proof (start_length true h os). lia.
Qed.
Theorem C48_only_parents : forall svd sha same w h os groups h' l r a, all_live h os -> a < length h ->
  create_groups svd sha true same w h os groups = (h', l, r) ->
  (nth_error h' a = nth_error h a \/
   exists i g ms o, nth_error os i = Some g /\ members_of h g = Some ms /\ In a ms /\ get h a = Some o /\
     get h' a = Some (mkObj (o_fit o) (o_members o) (Some (length h + i)) (o_disabled o))) /\
  ((exists g ms, In g os /\ members_of h g = Some ms /\ In a ms) -> is_live h a ->
   exists i g ms, nth_error os i = Some g /\ members_of h g = Some ms /\ In a ms /\
     parent_of h' a = Some (length h + i)).
Proof.
  intros svd sha same w h os groups h' l r a HL La H.
  pose proof (old_after _ _ _ _ _ _ _ _ _ _ _ HL H La) as E.
  destruct (last_event _ a) as [p|] eqn:LE.
  - apply last_event_in, old_event in LE; auto. destruct LE as (i & g & ms & -> & Eg & M & I). split.
    + destruct (nth_error h a) as [[o|ms']|] eqn:N.
      * right. exists i, g, ms, o. unfold get. rewrite N, E. auto.
      * left. rewrite E. reflexivity.
      * left. rewrite E. reflexivity.
    + intros _ [o G]. exists i, g, ms. repeat split; auto. unfold parent_of, get in *. rewrite E.
      destruct (nth_error h a) as [[o'|]|]; try discriminate. reflexivity.
  - split; [now left|]. intros (g & ms & Ig & M & I) _. exfalso.
    apply last_event_none in LE. apply LE. apply in_map_iff.
    apply In_nth_error in Ig. destruct Ig as (i & Ei).
    assert (Ei' : exists b, nth_error (base_of true h os) i = Some b).
    { destruct (nth_error (base_of true h os) i) eqn:X; eauto. apply nth_error_None in X. rewrite base_length in X.
      assert (i < length os) by (apply nth_error_Some; congruence). lia. }
    destruct Ei' as (b & Eb). destruct (nth_start _ _ _ _ HL Eb) as (_ & g' & Eg' & G).
    assert (g' = g) by congruence. subst g'.
    exists (a, Some b). split; auto. apply reset_events_in. exists b. split; [eapply nth_error_In; eauto|].
    right. exists a. split; auto. apply members_list_in. exists ms. split; auto. unfold members_of in *. now rewrite G.
Qed.

(** ** C49 *)
Theorem C49_rejected : forall svd sha same w h os gs1 us1 u us2 gs2 h1 l1 x g ms, all_live h os ->
  create_groups svd sha false same w h os gs1 = (h1, l1, Ok tt) ->
  Forall (fun v => exists y, is_first sha h os v y /\
    forall g ms, In g os -> members_of h g = Some ms -> ~ In y ms) us1 ->
  is_first sha h os u x -> In g os -> members_of h g = Some ms -> In x ms ->
  create_groups svd sha false same w h os (gs1 ++ (us1 ++ u :: us2) :: gs2) = (h1, l1, Raise GroupedPlaneError).
Proof.
  intros svd sha same w h os gs1 us1 u us2 gs2 h1 l1 x g ms HL H P F Ig M Ix.
  destruct (create_frame _ _ _ _ _ _ _ _ _ _ _ HL H) as (_ & _ & (news & El & _) & _ & SO).
  simpl in El, SO. rewrite apply_length in SO.
  assert (FE : forall v y, is_first sha h os v y -> first_with sha h1 l1 v = Some y).
  { intros v y Fy. apply first_with_iff in Fy. rewrite El, first_with_app.
    rewrite (first_with_ext sha h h1 os v), Fy; auto. intros a Ia.
    destruct (SO a (all_live_lt _ _ _ HL Ia)) as (-> & _). apply fit_apply. }
  eapply create_fail_at; eauto.
  destruct (find_prefix sha h1 l1 (grouped_list false h os) us1) as (vals & E).
  { eapply Forall_impl; [|exact P]. intros v (y & Fy & N). exists y. split.
    - now apply first_with_iff, FE.
    - unfold grouped_list. simpl. rewrite grouped_in. intros (g' & ms' & A & B & C). exact (N g' ms' A B C). }
  eapply find_all_app_raise; eauto. unfold find_uid. rewrite (FE _ _ F).
  assert (existsb (Nat.eqb x) (grouped_list false h os) = true) as ->; auto.
  apply existsb_in. unfold grouped_list. simpl. apply grouped_in. eauto.
Qed.
Theorem C49_copies_not_rejected : forall svd sha same w h os groups h' l, reach h -> all_live h os ->
  create_groups svd sha true same w h os groups = (h', l, Raise GroupedPlaneError) ->
  exists us u g, In us groups /\ In u us /\ is_first sha h' l u g /\ members_of h' g <> None.
Proof.
  intros svd sha same w h os groups h' l R HL H. apply reach_wf in R.
  destruct (create_fail _ _ _ _ _ _ _ _ _ _ _ H) as (gs1 & us & gs2 & h1 & -> & C & X).
  destruct (create_frame _ _ _ _ _ _ _ _ _ _ _ HL C) as (_ & L1 & (news & El & Nl) & _ & _).
  assert (LE : forall x, In x l -> length h <= x).
  { intros x I. rewrite El in I. apply in_app_iff in I. destruct I as [I|I].
    - simpl in I. apply in_seq in I. lia.
    - apply Nl in I. rewrite apply_length in I. pose proof (start_length true h os). lia. }
  destruct X as [(F & ->)|(vals & F & G)].
  - exfalso. apply find_all_raise in F. destruct F as (us1 & u & us2 & _ & F). unfold find_uid in F.
    destruct (first_with sha h1 l u) as [x|] eqn:E; [|discriminate].
    destruct (existsb (Nat.eqb x) (grouped_list true h os)) eqn:Ex; [|discriminate].
    apply first_with_some in E. destruct E as [E _]. apply LE in E.
    apply existsb_in in Ex. unfold grouped_list in Ex. apply grouped_in in Ex. destruct Ex as (g & ms & Ig & M & Ix).
    apply In_nth_error in Ig. destruct Ig as (i & Ei). destruct (nth_start _ _ _ _ HL Ei) as (_ & g' & _ & G).
    unfold members_of in M. rewrite G in M.
    destruct (wf_members h R g' ms x M Ix) as [Lx _]. apply live_lt in Lx. lia.
  - apply find_all_ok in F.
    assert (HV : all_live h1 vals).
    { apply Forall_forall. intros v I. destruct (Forall2_right _ _ _ _ _ _ F I) as (u & _ & E & _).
      apply first_with_some in E. unfold all_live in L1. rewrite Forall_forall in L1. now apply L1. }
    pose proof G as G'. apply group_exn in G'; auto. destruct G' as [(_ & NG)|[E|E]]; try discriminate.
    destruct (no_group_dec _ _ NG) as (g & Ig & Mg).
    destruct (Forall2_right _ _ _ _ _ _ F Ig) as (u & Iu & Fu & _).
    assert (SO : forall a, a < length h1 -> same_object h1 h' a a).
    { intros a La. destruct (group_frame _ _ _ _ _ _ _ HV G) as [(_ & -> & _)|(_ & c & -> & _)].
      - unfold same_object; auto.
      - eapply same_object_trans; [apply same_object_apply|]. apply same_object_app. now rewrite apply_length. }
    exists us, u, g. split; [apply in_app_iff; right; now left|]. split; auto. split.
    + apply first_with_iff. rewrite <- Fu. apply first_with_ext. intros a Ia. destruct (SO a (all_live_lt _ _ _ L1 Ia)) as [-> _]. reflexivity.
    + destruct (SO g) as (_ & -> & _); auto. eapply all_live_lt; eauto.
Qed.

(** ** C50, C51 *)
Theorem C50_failed_group : forall svd same w h a1 k a2, all_live h (a1 ++ k :: a2) ->
  (forall a, In a a1 -> members_of h a = None) -> members_of h k <> None ->
  exists h', GroupedOrientation svd same w h (a1 ++ k :: a2) = (h', Raise GroupedPlaneError) /\
    length h' = S (length h) /\ nth_error h' (length h) = Some (Partial None) /\
    (forall a o, In a a1 -> get h a = Some o ->
       get h' a = Some (mkObj (o_fit o) (o_members o) (Some (length h)) (o_disabled o))) /\
    (forall a, a < length h -> ~ In a a1 -> nth_error h' a = nth_error h a).
Proof.
  intros svd same w h a1 k a2 HL N K.
  destruct (GroupedOrientation svd same w h (a1 ++ k :: a2)) as [h' r] eqn:G.
  assert (NN : ~ no_group h (a1 ++ k :: a2)).
  { intros Q. unfold no_group in Q. rewrite Forall_forall in Q. apply K, Q. apply in_app_iff. right; now left. }
  destruct (group_frame _ _ _ _ _ _ _ HL G) as [(E & _)|(_ & c & -> & [(-> & _ & ->)|(Q & _)])]; [|clear NN|tauto].
  { destruct a1; discriminate. }
  assert (B : before_group h (a1 ++ k :: a2) = a1).
  { clear -N K. induction a1 as [|a t IH]; simpl.
    - destruct (members_of h k); [reflexivity | congruence].
    - rewrite N by now left. f_equal. apply IH. intros; apply N; now right. }
  rewrite B. eexists. split; [reflexivity|].
  assert (Z : forall a, a < length h -> nth_error (apply h (link (length h) a1) ++ [Partial None]) a =
    if existsb (Nat.eqb a) a1 then option_map (on_live (with_parent (Some (length h)))) (nth_error h a) else nth_error h a).
  { intros a La. rewrite nth_app_l by (now rewrite apply_length). rewrite nth_apply, last_event_link.
    now destruct (existsb (Nat.eqb a) a1). }
  split; [rewrite app_length, apply_length; simpl; lia|]. split; [|split].
  - rewrite nth_error_app2; rewrite apply_length; auto. now rewrite Nat.sub_diag.
  - intros a o I G0. unfold get in *. rewrite Z.
    + apply existsb_in in I. rewrite I. destruct (nth_error h a) as [[o'|]|]; try discriminate. injection G0 as ->. reflexivity.
    + apply nth_error_Some. now destruct (nth_error h a).
  - intros a La I. rewrite Z by auto. apply existsb_not_in in I. now rewrite I.
Qed.
(** a failing fit leaves every argument re-parented *)
Theorem C50_failed_fit : forall svd same w h args os e, all_live h args -> args <> [] ->
  (forall a, In a args -> members_of h a = None) -> get_all h args = Some os ->
  group_fit svd same w os = Raise e ->
  exists h', GroupedOrientation svd same w h args = (h', Raise e) /\
    length h' = S (length h) /\ nth_error h' (length h) = Some (Partial (Some args)) /\
    (forall a o, In a args -> get h a = Some o ->
       get h' a = Some (mkObj (o_fit o) (o_members o) (Some (length h)) (o_disabled o))) /\
    (forall a, a < length h -> ~ In a args -> nth_error h' a = nth_error h a).
Proof.
  intros svd same w h args os e HL NE N GA GF.
  destruct (group_result svd same w h args HL NE) as (os' & F & E).
  assert (os' = os).
  { clear -F GA. revert os GA. induction F as [|a o args os' Ga F IH]; intros os GA; simpl in GA; [congruence|].
    rewrite Ga in GA. destruct (get_all h args) as [l|]; [|discriminate]. injection GA as <-. f_equal. now apply IH. }
  subst os'. assert (HG : has_group h args = false) by (apply has_group_false, Forall_forall; auto).
  rewrite HG, GF in E. rewrite E. rewrite before_group_all by (apply Forall_forall; auto).
  eexists. split; [reflexivity|].
  assert (Z : forall c a, a < length h -> nth_error (apply h (link (length h) args) ++ [c]) a =
    if existsb (Nat.eqb a) args then option_map (on_live (with_parent (Some (length h)))) (nth_error h a) else nth_error h a).
  { intros c a La. rewrite nth_app_l by (now rewrite apply_length). rewrite nth_apply, last_event_link.
    now destruct (existsb (Nat.eqb a) args). }
  split; [rewrite app_length, apply_length; simpl; lia|]. split; [|split].
  - rewrite nth_error_app2; rewrite apply_length; auto. now rewrite Nat.sub_diag.
  - intros a o I G0. unfold get in *. rewrite Z.
    + apply existsb_in in I. rewrite I. destruct (nth_error h a) as [[o'|]|]; try discriminate. injection G0 as ->. reflexivity.
    + apply nth_error_Some. now destruct (nth_error h a).
  - intros a La I. rewrite Z by auto. apply existsb_not_in in I. now rewrite I.
Qed.
Theorem C50_failed_disable : forall sha h os us1 u us2,
  (forall v, In v us1 -> exists x, is_first sha h os v x) -> (forall x, In x os -> uid_of sha h x <> Some u) ->
  exists h', disable_orientations sha h os (us1 ++ u :: us2) = (h', Raise KeyError) /\
    forall a o, get h a = Some o ->
      ((exists v, In v us1 /\ is_first sha h os v a) -> get h' a = Some (mkObj (o_fit o) (o_members o) (o_parent o) true)) /\
      (~ (exists v, In v us1 /\ is_first sha h os v a) -> get h' a = Some o).
Proof.
  intros sha h os us1 u us2 H N. destruct (disable_ok sha us1 h os H) as (h' & E & G & F & _).
  exists h'. rewrite disable_app, E. simpl. rewrite F.
  assert (first_with sha h os u = None) as -> by (now apply first_with_none).
  split; auto. intros a o Ga. rewrite G, Ga. rewrite <- hit_iff. destruct (hit sha h os us1 a); split; intros Q; auto; congruence.
Qed.
Theorem C51_no_group_members : forall svd same w h args h' r g, all_live h args ->
  GroupedOrientation svd same w h args = (h', r) -> In g args -> members_of h g <> None -> r = Raise GroupedPlaneError.
Proof.
  intros svd same w h args h' r g HL G I M.
  destruct (group_frame _ _ _ _ _ _ _ HL G) as [(-> & _)|(_ & c & _ & [(_ & _ & ->)|(Q & _)])]; auto.
  - destruct I.
  - exfalso. apply M. unfold no_group in Q. rewrite Forall_forall in Q. auto.
Qed.
Theorem C51_never_nested : forall h, reach h ->
  (forall g ms m, members_of h g = Some ms -> In m ms -> is_live h m /\ members_of h m = None) /\
  (forall a g, parent_of h a = Some g -> is_group h g) /\
  (forall a o, get h a = Some o -> made o).
Proof.
  intros h R. apply reach_wf in R. destruct R as [M P F]. split; auto. split; auto.
  intros a o G. apply (F a). unfold fit_of. now rewrite G.
Qed.

(** ** C52 *)
Theorem C52_disabled : forall sha h os us h' r, disable_orientations sha h os us = (h', r) ->
  ((exists l, r = Ok l) <-> forall u, In u us -> exists x, is_first sha h os u x) /\
  ((exists u, In u us /\ forall x, In x os -> uid_of sha h x <> Some u) -> r = Raise KeyError) /\
  forall l, r = Ok l -> l = os /\ length h' = length h /\
    forall a o, get h a = Some o -> exists d,
      get h' a = Some (mkObj (o_fit o) (o_members o) (o_parent o) d) /\
      (d = true <-> o_disabled o = true \/ exists u, In u us /\ is_first sha h os u a).
Proof.
  intros sha h os us h' r H.
  assert (D : (forall u, In u us -> exists x, is_first sha h os u x) \/
    exists us1 u us2, us = us1 ++ u :: us2 /\ (forall v, In v us1 -> exists x, is_first sha h os v x) /\
      forall x, In x os -> uid_of sha h x <> Some u).
  { clear. induction us as [|u us IH].
    - left. intros u [].
    - destruct (first_with sha h os u) as [x|] eqn:F.
      + apply first_with_iff in F. destruct IH as [IH|(us1 & v & us2 & -> & A & B)].
        * left. intros v [<-|I]; eauto.
        * right. exists (u :: us1), v, us2. split; auto. split; auto. intros z [<-|I]; eauto.
      + right. exists [], u, us. split; auto. split; [intros v []|]. now apply first_with_none. }
  destruct D as [D|(us1 & u & us2 & -> & A & B)].
  - destruct (disable_ok sha us h os D) as (h2 & E & G & _ & _ & L). rewrite H in E. injection E as -> ->.
    split; [split; eauto|]. split.
    + intros (u & I & N). destruct (D u I) as (x & l1 & l2 & -> & U & _). exfalso. apply (N x); auto. apply in_app_iff. right; now left.
    + intros l E. injection E as <-. split; auto. split; auto. intros a o Ga. rewrite G, Ga.
      destruct (hit sha h os us a) eqn:Hh.
      * exists true. split; auto. apply hit_iff in Hh. split; auto.
      * exists (o_disabled o). split; [now destruct o|]. split; [auto|]. intros [Q|Q]; auto. apply hit_iff in Q. congruence.
  - destruct (C50_failed_disable sha h os us1 u us2 A B) as (h2 & E & _). rewrite H in E. injection E as -> ->.
    split; [split|split]; auto.
    + intros (l & Q). discriminate.
    + intros Q. exfalso. destruct (Q u) as (x & l1 & l2 & -> & U & _). { apply in_app_iff. right; now left. }
      apply (B x); auto. apply in_app_iff. right; now left.
    + intros l Q. discriminate.
Qed.

(** ** C93: an existing group keeps the link of a member iff the member does not
    come after it in the list *)
Theorem C93_link_kept_iff : forall svd sha same w h l1 g l2 groups h' l ms x,
  all_live h (l1 ++ g :: l2) -> NoDup (l1 ++ g :: l2) ->
  create_groups svd sha false same w h (l1 ++ g :: l2) groups = (h', l, Ok tt) ->
  members_of h g = Some ms -> In x ms -> is_live h x -> x <> g ->
  (forall g' ms', In g' (l1 ++ g :: l2) -> members_of h g' = Some ms' -> In x ms' -> g' = g) ->
  (In x l2 -> parent_of h' x = None) /\ (~ In x l2 -> parent_of h' x = Some g).
Proof.
  intros svd sha same w h l1 g l2 groups h' l ms x HL ND H M Ix Lx Nx U.
  set (os := l1 ++ g :: l2) in *.
  destruct (created _ _ _ _ _ _ _ _ _ _ HL H) as (h1 & gms & cs & E1 & HL1 & -> & R & _ & _ & ->).
  simpl in E1, R. fold os in R.
  assert (Ig : In g os) by (apply in_app_iff; right; now left).
  assert (GR : In x (concat (map (members_list h) os))) by (apply grouped_in; eauto).
  assert (P : parent_of (apply h1 (group_events (length h1) gms) ++ cs) x = parent_of h1 x).
  { unfold parent_of. rewrite get_app_l.
    2:{ rewrite apply_length, E1, apply_length. now apply live_lt. }
    rewrite get_apply. assert (last_event (group_events (length h1) gms) x = None) as ->; auto.
    apply last_event_none. intros I. apply in_map_iff in I. destruct I as ((b & p) & Eb & I). simpl in Eb. subst b.
    apply group_events_in in I. destruct I as (i & ms' & m & Ei & Im & E). injection E as -> _.
    destruct (Forall2_nth _ _ _ _ _ _ _ R Ei) as (us & _ & Q). destruct (Forall2_right _ _ _ _ _ _ Q Im) as (u & _ & _ & N & _).
    apply N. exact GR. }
  rewrite P, E1, parent_apply by auto.
  assert (Eos : reset_events h os = reset_events h l1 ++ ((g, None) :: link g ms) ++ reset_events h l2).
  { unfold reset_events, os. rewrite map_app, concat_app. simpl. now rewrite (members_list_some _ _ _ M). }
  rewrite Eos, !last_event_app.
  assert (Ng2 : ~ In g l2) by (apply NoDup_remove_2 in ND; intros I; apply ND, in_app_iff; auto).
  split.
  - intros I2. rewrite (last_event_const (reset_events h l2) x None); auto.
    + apply reset_events_in. exists x. auto.
    + intros p Ip. apply reset_events_in in Ip. destruct Ip as (o & Io & [E|(m & Im & E)]); [congruence|].
      injection E as <- ->. exfalso. apply members_list_in in Im. destruct Im as (ms' & M' & I').
      assert (o = g) by (eapply U; eauto; apply in_app_iff; right; now right). subst o. tauto.
  - intros N2.
    assert (last_event (reset_events h l2) x = None) as ->.
    { apply last_event_none. intros I. apply in_map_iff in I. destruct I as ((b & p) & Eb & Ip). simpl in Eb. subst b.
      apply reset_events_in in Ip. destruct Ip as (o & Io & [E|(m & Im & E)]).
      - injection E as -> _. tauto.
      - injection E as <- ->. apply members_list_in in Im. destruct Im as (ms' & M' & I').
        assert (o = g) by (eapply U; eauto; apply in_app_iff; right; now right). subst o. tauto. }
    change ((g, None) :: link g ms) with ([(g, @None nat)] ++ link g ms). rewrite last_event_app, last_event_link.
    apply existsb_in in Ix. now rewrite Ix.
Qed.

(** ** Concrete histories, for every decomposition routine and every digest *)
Lemma demo : forall svd, lapack svd -> exists f g, PCAOrientation svd tilted_data None None = Ok f /\
  forall p d, group_fit svd false None [mkObj f None p d] = Ok g.
Proof.
  intros svd HL. destruct (fit_exists svd tilted_data HL) as (f & F). { simpl; lia. }
  destruct (fit_inv _ _ _ HL F) as (_ & _ & _ & _ & _ & _ & Ea & _).
  destruct (fit_exists svd (group_array false [fresh f]) HL) as (g & Hg).
  { unfold group_array. simpl. rewrite app_nil_r. unfold centered_array; simpl. rewrite Ea, centered_length. simpl. lia. }
  exists f. eexists. split; auto. intros p d. unfold group_fit.
  change (group_array false [mkObj f None p d]) with (group_array false [fresh f]). rewrite Hg. simpl. reflexivity.
Qed.
Ltac run G := unfold fresh; repeat (progress (cbv -[group_fit uid Nat.eqb];
  rewrite ?Nat.eqb_refl, ?G; cbn [Nat.eqb])).
Section Demo.
Variables (svd : svd_fn) (sha : mat3 -> nat) (f g : pca).
Hypothesis F : PCAOrientation svd tilted_data None None = Ok f.
Hypothesis G : forall p d, group_fit svd false None [mkObj f None p d] = Ok g.
Let u := uid sha f.
Let h0 := [Live (fresh f)].
Let h1 := [Live (fresh f); Live (mkObj f None (Some 2) false); Live (mkObj g (Some [1]) None false)].
Lemma demo_copy : create_groups svd sha true false None h0 [0] [[u]] = (h1, [1; 2], Ok tt).
Proof. unfold h0, h1, u. run G. reflexivity. Qed.
Lemma demo_again : create_groups svd sha true false None h1 [1; 2] [[u]] =
  ([Live (fresh f); Live (mkObj f None (Some 4) false); Live (mkObj g (Some [1]) None false);
    Live (mkObj f None (Some 5) false); Live (mkObj g (Some [1]) None false);
    Live (mkObj g (Some [3]) None false)], [3; 4; 5], Ok tt).
Proof. unfold h1, u. run G. reflexivity. Qed.
Lemma demo_shared : create_groups svd sha false false None h0 [0] [[u]; [u]] =
  ([Live (mkObj f None (Some 2) false); Live (mkObj g (Some [0]) None false); Live (mkObj g (Some [0]) None false)],
   [0; 1; 2], Ok tt).
Proof. unfold h0, u. run G. reflexivity. Qed.
Let h2 := [Live (mkObj f None (Some 1) false); Live (mkObj g (Some [0]) None false)].
Lemma demo_inplace : create_groups svd sha false false None h0 [0] [[u]] = (h2, [0; 1], Ok tt).
Proof. unfold h0, h2, u. run G. reflexivity. Qed.
Lemma demo_lost : create_groups svd sha false false None h2 [1; 0] [] =
  ([Live (mkObj f None None false); Live (mkObj g (Some [0]) None false)], [1; 0], Ok tt).
Proof. unfold h2. run G. reflexivity. Qed.
Lemma demo_kept : create_groups svd sha false false None h2 [0; 1] [] = (h2, [0; 1], Ok tt).
Proof. unfold h2. run G. reflexivity. Qed.
Lemma demo_reach0 : reach h0.
Proof. apply (reach_fit [] svd tilted_data None None f reach_nil F). Qed.
Lemma live0 : all_live h0 [0].
Proof. constructor; [|constructor]. eexists. reflexivity. Qed.
Lemma demo_reach1 : reach h1.
Proof. eapply reach_create; [exact demo_reach0 | exact live0 | exact demo_copy]. Qed.
Lemma demo_reach2 : reach h2.
Proof. eapply reach_create; [exact demo_reach0 | exact live0 | exact demo_inplace]. Qed.
Lemma live1 : all_live h1 [1; 2].
Proof. repeat (constructor; [eexists; reflexivity|]); constructor. Qed.
Lemma live2 : all_live h2 [1; 0].
Proof. repeat (constructor; [eexists; reflexivity|]); constructor. Qed.
Lemma demo_first : is_first sha h2 [0; 1] u 0.
Proof. exists [], [1]. split; [reflexivity|]. split; [reflexivity|]. intros y []. Qed.
End Demo.

(** the hypotheses of C45-C52 and C93 hold in reachable heaps *)
Example C45_ex : forall svd sha, lapack svd -> exists h groups h' l, reach h /\ all_live h [0] /\
  create_groups svd sha true false None h [0] groups = (h', l, Ok tt) /\ disjoint_requests groups /\ length l = 2.
Proof.
  intros svd sha HL. destruct (demo svd HL) as (f & g & F & G).
  exists [Live (fresh f)], [[uid sha f]]. do 2 eexists. split; [exact (demo_reach0 svd f F)|].
  split; [apply live0|]. split; [apply (demo_copy svd sha f g G)|]. split; auto.
  intros [|[|i]] [|[|j]] us vs v; simpl; auto; discriminate.
Qed.
Theorem C48_witness : forall svd sha, lapack svd -> exists h os groups h' l a, reach h /\ all_live h os /\
  a < length h /\ create_groups svd sha true false None h os groups = (h', l, Ok tt) /\
  parent_of h a = Some 2 /\ parent_of h' a = Some 4.
Proof.
  intros svd sha HL. destruct (demo svd HL) as (f & g & F & G).
  do 3 eexists. eexists. eexists. exists 1. split; [exact (demo_reach1 svd sha f g F G)|]. split; [apply live1|].
  split; [simpl; lia|]. split; [apply (demo_again svd sha f g G)|]. split; reflexivity.
Qed.
(** the data of one orientation in two groups of the returned list, after two calls *)
Theorem C49_two_calls : forall svd sha, lapack svd -> exists h os groups h' l g1 g2 m1 m2,
  reach h /\ all_live h os /\ create_groups svd sha true false None h os groups = (h', l, Ok tt) /\
  g1 <> g2 /\ In g1 l /\ In g2 l /\ members_of h' g1 = Some [m1] /\ members_of h' g2 = Some [m2] /\
  same_object h' h' m1 m2 /\ uid_of sha h' m1 = uid_of sha h' m2.
Proof.
  intros svd sha HL. destruct (demo svd HL) as (f & g & F & G).
  do 5 eexists. exists 4, 5, 1, 3. split; [exact (demo_reach1 svd sha f g F G)|]. split; [apply live1|].
  split; [apply (demo_again svd sha f g G)|].
  split; [lia|]. split; [right; now left|]. split; [right; right; now left|].
  split; [reflexivity|]. split; [reflexivity|]. split; [|reflexivity].
  unfold same_object. repeat split; auto. intros _. eexists. reflexivity.
Qed.
(** and one object in two groups made by a single call *)
Theorem C49_one_call : forall svd sha, lapack svd -> exists h groups h' l g1 g2 x,
  reach h /\ all_live h [x] /\ create_groups svd sha false false None h [x] groups = (h', l, Ok tt) /\
  g1 <> g2 /\ In g1 l /\ In g2 l /\ members_of h' g1 = Some [x] /\ members_of h' g2 = Some [x] /\
  parent_of h' x = Some g2.
Proof.
  intros svd sha HL. destruct (demo svd HL) as (f & g & F & G).
  do 4 eexists. exists 1, 2, 0. split; [exact (demo_reach0 svd f F)|]. split; [apply live0|].
  split; [apply (demo_shared svd sha f g G)|].
  split; [lia|]. split; [right; now left|]. split; [right; right; now left|]. repeat split; reflexivity.
Qed.
Example C49_ex : forall svd sha, lapack svd -> exists h u ms, reach h /\ all_live h [0; 1] /\
  is_first sha h [0; 1] u 0 /\ members_of h 1 = Some ms /\ In 0 ms.
Proof.
  intros svd sha HL. destruct (demo svd HL) as (f & g & F & G).
  exists [Live (mkObj f None (Some 1) false); Live (mkObj g (Some [0]) None false)]. do 2 eexists.
  split; [exact (demo_reach2 svd sha f g F G)|]. split; [repeat (constructor; [eexists; reflexivity|]); constructor|].
  split; [apply demo_first|]. split; [reflexivity|]. now left.
Qed.
Example C50_ex : forall svd, lapack svd -> exists h, reach h /\ all_live h ([0] ++ 1 :: []) /\
  members_of h 0 = None /\ members_of h 1 <> None.
Proof.
  intros svd HL. destruct (demo svd HL) as (f & g & F & G).
  exists [Live (mkObj f None (Some 1) false); Live (mkObj g (Some [0]) None false)].
  split; [exact (demo_reach2 svd (fun _ => 0) f g F G)|]. split; [repeat (constructor; [eexists; reflexivity|]); constructor|].
  split; [reflexivity | discriminate].
Qed.
Example C52_ex : forall svd sha, lapack svd -> exists h u h', reach h /\
  disable_orientations sha h [0; 1] [u] = (h', Ok [0; 1]) /\ disabled_of h 0 = false /\ disabled_of h' 0 = true.
Proof.
  intros svd sha HL. destruct (demo svd HL) as (f & g & F & G).
  exists [Live (mkObj f None (Some 1) false); Live (mkObj g (Some [0]) None false)], (uid sha f).
  eexists. split; [exact (demo_reach2 svd sha f g F G)|]. split; [run G; reflexivity|]. split; reflexivity.
Qed.
(** listing a group before its member loses the link *)
Theorem C93_relink_refuted : forall svd sha, lapack svd -> exists h os h' l g x,
  reach h /\ all_live h os /\ create_groups svd sha false false None h os [] = (h', l, Ok tt) /\
  In g l /\ In x l /\ members_of h' g = Some [x] /\ parent_of h x = Some g /\ parent_of h' x = None.
Proof.
  intros svd sha HL. destruct (demo svd HL) as (f & g & F & G).
  do 4 eexists. exists 1, 0. split; [exact (demo_reach2 svd sha f g F G)|]. split; [apply live2|].
  split; [apply (demo_lost svd sha f g)|]. split; [now left|]. split; [right; now left|]. repeat split; reflexivity.
Qed.
Example C93_ex : forall svd sha, lapack svd -> exists h h' l, reach h /\ NoDup ([0] ++ 1 :: []) /\
  create_groups svd sha false false None h ([0] ++ 1 :: []) [] = (h', l, Ok tt) /\ members_of h 1 = Some [0] /\ 
  (forall g' ms', In g' ([0] ++ 1 :: []) -> members_of h g' = Some ms' -> In 0 ms' -> g' = 1).
Proof.
  intros svd sha HL. destruct (demo svd HL) as (f & g & F & G).
  do 3 eexists. split; [exact (demo_reach2 svd sha f g F G)|]. split; [repeat constructor; simpl; lia|].
  split; [apply (demo_kept svd sha f g)|]. split; [reflexivity|].
  intros g' ms' [<-|[<-|[]]] M I; auto. discriminate.
Qed.

Print Assumptions C46_nothing_dropped.
Print Assumptions C46_unknown.
Print Assumptions C46_only_unknown.
Print Assumptions C47_untouched.
Print Assumptions C48_only_parents.
Print Assumptions C48_witness.
Print Assumptions C49_rejected.
Print Assumptions C49_copies_not_rejected.
Print Assumptions C49_two_calls.
Print Assumptions C49_one_call.
Print Assumptions C50_failed_group.
Print Assumptions C50_failed_fit.
Print Assumptions C50_failed_disable.
Print Assumptions C51_no_group_members.
Print Assumptions C51_never_nested.
Print Assumptions C52_disabled.
Print Assumptions C93_link_kept_iff.
Print Assumptions C93_relink_refuted.
