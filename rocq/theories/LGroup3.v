(** Lemmas for C46-C52 and C93. *)
From Coq Require Import Reals Lra List Arith Lia Bool.
From Verif Require Import RVec SpecPlane MPca LSvd LPca LFit2 LExamples MGroup LGroup LGroup2.
Import ListNotations.
Open Scope nat_scope.

Definition grouped_list (copy : bool) (h : heap) (os : list nat) : list nat :=
  concat (map (members_list (start_heap copy h os)) (base_of copy h os)).
Lemma base_length : forall copy h os, length (base_of copy h os) = length os.
Proof. intros [|] h os; simpl; auto. apply seq_length. Qed.

Section Create.
Variables (svd : svd_fn) (sha : mat3 -> nat) (copy same : bool) (w : option vec3).
Notation create := (create_groups svd sha copy same w).

Lemma create_frame : forall h os groups h' l r, all_live h os -> create h os groups = (h', l, r) ->
  let h1 := apply (start_heap copy h os) (reset_events (start_heap copy h os) (base_of copy h os)) in
  length h1 <= length h' /\ all_live h' l /\
  (exists news, l = base_of copy h os ++ news /\ forall g, In g news -> length h1 <= g) /\
  (forall a, a < length h1 -> ~ In a (base_of copy h os) -> nth_error h' a = nth_error h1 a) /\
  (forall a, a < length h1 -> same_object h1 h' a a).
Proof.
  intros h os groups h' l r HL H. rewrite create_unfold in H. cbv zeta in *.
  eapply make_groups_frame; [|exact H]. apply live_apply_all, start_live; auto.
Qed.
Lemma create_firstn : forall h os groups h' l r, all_live h os -> create h os groups = (h', l, r) ->
  firstn (length os) l = base_of copy h os.
Proof.
  intros h os groups h' l r HL H. destruct (create_frame _ _ _ _ _ _ HL H) as (_ & _ & (news & -> & _) & _).
  rewrite <- (base_length copy h os), firstn_app, Nat.sub_diag, firstn_all. simpl. apply app_nil_r.
Qed.
(** [grouped] is the set of members of the groups among the orientations of the call *)
Lemma grouped_spec : forall h os groups h' l r x, all_live h os -> create h os groups = (h', l, r) ->
  (In x (grouped_list copy h os) <->
   exists g ms, In g (firstn (length os) l) /\ members_of h' g = Some ms /\ In x ms).
Proof.
  intros h os groups h' l r x HL H. rewrite (create_firstn _ _ _ _ _ _ HL H).
  destruct (create_frame _ _ _ _ _ _ HL H) as (_ & _ & _ & _ & SO).
  unfold grouped_list. rewrite grouped_in.
  assert (E : forall g, In g (base_of copy h os) -> members_of h' g = members_of (start_heap copy h os) g).
  { intros g I. destruct (SO g) as (_ & -> & _).
    - rewrite apply_length. eapply all_live_lt; [apply start_live, HL | exact I].
    - apply members_apply. }
  split; intros (g & ms & I & M & Ix); exists g, ms; [rewrite E by auto | rewrite <- E by auto]; auto.
Qed.
Lemma create_fail_at : forall h os gs1 us gs2 h1 l1 e, all_live h os -> create h os gs1 = (h1, l1, Ok tt) ->
  find_all sha h1 l1 (grouped_list copy h os) us = Raise e ->
  create h os (gs1 ++ us :: gs2) = (h1, l1, Raise e).
Proof.
  intros h os gs1 us gs2 h1 l1 e HL H F. rewrite create_unfold in *. cbv zeta in *.
  rewrite make_groups_app, H. simpl. unfold grouped_list in F. now rewrite F.
Qed.
Lemma create_fail : forall h os groups h' l e, create h os groups = (h', l, Raise e) ->
  exists gs1 us gs2 h1, groups = gs1 ++ us :: gs2 /\ create h os gs1 = (h1, l, Ok tt) /\
    ((find_all sha h1 l (grouped_list copy h os) us = Raise e /\ h' = h1) \/
     exists vals, find_all sha h1 l (grouped_list copy h os) us = Ok vals /\
       GroupedOrientation svd same w h1 vals = (h', Raise e)).
Proof.
  intros h os groups h' l e H. rewrite create_unfold in H. cbv zeta in H.
  destruct (make_groups_fail _ _ _ _ _ _ _ _ _ _ _ H) as (gs1 & us & gs2 & h1 & E & M & X).
  exists gs1, us, gs2, h1. split; auto. split; auto. rewrite create_unfold. exact M.
Qed.
Lemma find_prefix : forall h1 l1 gr us,
  Forall (fun v => exists x, is_first sha h1 l1 v x /\ ~ In x gr) us ->
  exists vals, find_all sha h1 l1 gr us = Ok vals.
Proof.
  intros h1 l1 gr us H. induction H as [|u us (x & F & N) H (vals & IH)]; simpl; eauto.
  apply first_with_iff in F. assert (find_uid sha h1 l1 gr u = Ok x) as -> by (now apply find_uid_ok).
  simpl. rewrite IH. simpl. eauto.
Qed.
End Create.

Lemma group_fit_exn : forall svd same w os e, group_fit svd same w os = Raise e -> e = ValueError \/ e = LinAlgError.
Proof.
  intros svd same w os e H. unfold group_fit, PCAOrientation, run_svd in H.
  destruct (length _ <? 3)%nat; simpl in H; [injection H as <-; auto|].
  destruct (has_zero _); simpl in H; [injection H as <-; auto|].
  destruct (svd _) as [[u s] v]. simpl in H. discriminate.
Qed.
Lemma group_exn : forall svd same w h args h' e, all_live h args -> GroupedOrientation svd same w h args = (h', Raise e) ->
  (e = GroupedPlaneError /\ ~ no_group h args) \/ e = ValueError \/ e = LinAlgError.
Proof.
  intros svd same w h args h' e HL H.
  destruct (group_frame _ _ _ _ _ _ _ HL H) as [(_ & _ & E)|(_ & c & _ & [(_ & N & E)|(_ & os & _ & R)])].
  - injection E as ->. auto.
  - injection E as ->. auto.
  - destruct (group_fit svd same w os) as [f|e'|] eqn:G; destruct R as [_ R]; try discriminate.
    injection R as ->. right. eapply group_fit_exn; eauto.
Qed.
Lemma no_group_dec : forall h args, ~ no_group h args -> exists a, In a args /\ members_of h a <> None.
Proof.
  intros h args H. destruct (has_group h args) eqn:E.
  - unfold has_group in E. apply existsb_exists in E. destruct E as (a & I & E). exists a. split; auto.
    destruct (members_of h a); [discriminate|]. exfalso. discriminate.
  - apply has_group_false in E. tauto.
Qed.

(** * disable_orientations *)
Lemma fit_disabled : forall h x a, fit_of (set_disabled h x) a = fit_of h a.
Proof. intros. unfold fit_of. rewrite get_set_disabled. destruct (x =? a); auto. now destruct (get h a). Qed.
Lemma first_disabled : forall sha h x os u, first_with sha (set_disabled h x) os u = first_with sha h os u.
Proof. intros. apply first_with_ext. intros. apply fit_disabled. Qed.
Definition hit (sha : mat3 -> nat) (h : heap) (os us : list nat) (a : nat) : bool :=
  existsb (fun u => match first_with sha h os u with Some x => x =? a | None => false end) us.
Lemma hit_iff : forall sha h os us a, hit sha h os us a = true <-> exists u, In u us /\ is_first sha h os u a.
Proof.
  intros. unfold hit. rewrite existsb_exists. split; intros (u & I & H); exists u; split; auto.
  - destruct (first_with sha h os u) as [x|] eqn:E; [|discriminate]. apply Nat.eqb_eq in H. subst. now apply first_with_iff.
  - apply first_with_iff in H. rewrite H. apply Nat.eqb_refl.
Qed.
Lemma disable_app : forall sha us1 us2 h os, disable_orientations sha h os (us1 ++ us2) =
  match disable_orientations sha h os us1 with
  | (h1, Ok _) => disable_orientations sha h1 os us2
  | r => r
  end.
Proof.
  intros sha us1. induction us1 as [|u us1 IH]; intros us2 h os; simpl; auto.
  destruct (first_with sha h os u); auto.
Qed.
Lemma disable_ok : forall sha us h os, (forall u, In u us -> exists x, is_first sha h os u x) ->
  exists h', disable_orientations sha h os us = (h', Ok os) /\
    (forall a, get h' a = if hit sha h os us a then option_map with_disabled (get h a) else get h a) /\
    (forall u, first_with sha h' os u = first_with sha h os u) /\
    (forall a, get h a = None -> nth_error h' a = nth_error h a) /\ length h' = length h.
Proof.
  intros sha us. induction us as [|u us IH]; intros h os H; cbn [disable_orientations].
  - exists h. repeat split; auto.
  - destruct (H u) as [x Fx]; [now left|]. apply first_with_iff in Fx. rewrite Fx.
    destruct (IH (set_disabled h x) os) as (h' & E & G & F & P & L).
    { intros v I. destruct (H v) as [y Fy]; [now right|]. exists y. apply first_with_iff. rewrite first_disabled.
      now apply first_with_iff. }
    exists h'. split; auto. split; [|split; [|split]].
    + intros a. rewrite G, get_set_disabled.
      assert (X : hit sha (set_disabled h x) os us a = hit sha h os us a).
      { unfold hit. clear. induction us as [|v us IH]; simpl; auto. now rewrite first_disabled, IH. }
      rewrite X.
      assert (Y : hit sha h os (u :: us) a = ((x =? a) || hit sha h os us a)%bool)
        by (unfold hit; simpl; now rewrite Fx).
      rewrite Y. destruct (x =? a); simpl.
      * destruct (hit sha h os us a); auto. destruct (get h a) as [o|]; auto.
      * reflexivity.
    + intros v. rewrite F. apply first_disabled.
    + intros a N. rewrite P.
      * unfold set_disabled. rewrite nth_alter. unfold get in N. destruct (nth_error h a) as [[o|ms]|]; try discriminate; now destruct (x =? a).
      * rewrite get_set_disabled, N. now destruct (x =? a).
    + rewrite L. apply alter_length.
Qed.
Lemma wf_disable : forall sha us h os h' r, wf h -> disable_orientations sha h os us = (h', r) -> wf h'.
Proof.
  intros sha us. induction us as [|u us IH]; intros h os h' r W H; simpl in H.
  - injection H as <- _. auto.
  - destruct (first_with sha h os u) as [x|]; [|injection H as <- _; auto].
    apply IH in H; auto. destruct W as [M P F].
    assert (K : forall a, members_of (set_disabled h x) a = members_of h a).
    { intros a. unfold members_of. rewrite get_set_disabled. destruct (x =? a); auto. now destruct (get h a). }
    split.
    + intros a ms m. rewrite !K. intros E I. destruct (M _ _ _ E I) as [[o L] N]. split; auto.
      unfold is_live. rewrite get_set_disabled, L. destruct (x =? m); simpl; eauto.
    + intros a g E.
      assert (G : is_group h g).
      { apply (P a). unfold parent_of in *. rewrite get_set_disabled in E. destruct (x =? a); auto. destruct (get h a); auto. }
      destruct G as (c & N & C). unfold is_group, set_disabled. rewrite nth_alter, N.
      destruct (x =? g); simpl; eexists; split; eauto. destruct c; auto.
    + intros a f. rewrite fit_disabled. apply F.
Qed.

(** every heap that the library's calls can produce *)
Inductive reach : heap -> Prop :=
| reach_nil : reach []
| reach_fit : forall h svd arr w ax f, reach h -> PCAOrientation svd arr w ax = Ok f ->
    reach (h ++ [Live (fresh f)])
| reach_group : forall h svd same w args h' r, reach h -> all_live h args ->
    GroupedOrientation svd same w h args = (h', r) -> reach h'
| reach_create : forall h svd sha copy same w os groups h' l r, reach h -> all_live h os ->
    create_groups svd sha copy same w h os groups = (h', l, r) -> reach h'
| reach_disable : forall h sha os us h' r, reach h -> all_live h os ->
    disable_orientations sha h os us = (h', r) -> reach h'.
Lemma reach_wf : forall h, reach h -> wf h.
Proof.
  intros h H. induction H as [|h svd arr w ax f _ W F|h svd same w args h' r _ W L G|
    h svd sha copy same w os groups h' l r _ W L G|h sha os us h' r _ W L G].
  - split; unfold members_of, parent_of, fit_of, get; intros [|a]; simpl; discriminate.
  - apply wf_app; auto. simpl. refine (conj _ (conj _ _)); try discriminate. eapply fit_made; eauto.
  - eapply wf_group; eauto.
  - rewrite create_unfold in G. cbv zeta in G. eapply wf_make_groups; [| |exact G].
    + apply wf_apply; [now apply wf_start|]. intros m g I. apply reset_events_in in I.
      destruct I as (o & Io & [E|(m' & Im & E)]); [discriminate|]. injection E as <- <-.
      apply members_list_in in Im. destruct Im as (ms & E & _).
      unfold members_of in E. destruct (get (start_heap copy h os) g) as [ob|] eqn:Gg; [|discriminate].
      unfold get in Gg. unfold is_group. destruct (nth_error (start_heap copy h os) g) as [[o|]|]; try discriminate.
      injection Gg as <-. eexists. split; [reflexivity|]. simpl in *. congruence.
    + apply live_apply_all, start_live; auto.
  - eapply wf_disable; eauto.
Qed.
