(** More lemmas about the grouping heap: frames, well-formedness, first match. *)
From Coq Require Import Reals List Arith Lia Bool.
From Verif Require Import RVec SpecPlane MPca LPca MGroup LGroup.
Import ListNotations.
Open Scope nat_scope.

(** [x] is the first object of [os] whose identifier is [u] *)
Definition is_first (sha : mat3 -> nat) (h : heap) (os : list nat) (u x : nat) : Prop :=
  exists l1 l2, os = l1 ++ x :: l2 /\ uid_of sha h x = Some u /\
    forall y, In y l1 -> uid_of sha h y <> Some u.
Lemma first_with_iff : forall sha h os u x, first_with sha h os u = Some x <-> is_first sha h os u x.
Proof.
  intros sha h os u x. split.
  - induction os as [|a t IH]; intros H; [discriminate|]. simpl in H.
    unfold first_with in H. simpl in H. fold (first_with sha h t u) in H.
    destruct (match get h a with Some o => obj_uid sha o =? u | None => false end) eqn:E.
    + injection H as ->. exists [], t. split; auto. split; [|simpl; tauto].
      unfold uid_of. destruct (get h x); [|discriminate]. apply Nat.eqb_eq in E. simpl; congruence.
    + destruct (IH H) as (l1 & l2 & -> & U & N). exists (a :: l1), l2. split; auto. split; auto.
      intros y [<-|I]; auto. unfold uid_of. destruct (get h a); [|discriminate]. simpl.
      apply Nat.eqb_neq in E. congruence.
  - intros (l1 & l2 & -> & U & N). rewrite first_with_app.
    assert (first_with sha h l1 u = None) as -> by (now apply first_with_none).
    unfold first_with. simpl. unfold uid_of in U. destruct (get h x) as [o|]; [|discriminate].
    injection U as ->. now rewrite Nat.eqb_refl.
Qed.

(** everything but the parent link *)
Definition same_object (h h' : heap) (a b : nat) : Prop :=
  fit_of h' b = fit_of h a /\ members_of h' b = members_of h a /\ disabled_of h' b = disabled_of h a /\
  (is_live h a -> is_live h' b).

Lemma same_object_apply : forall h evs a, same_object h (apply h evs) a a.
Proof.
  intros. unfold same_object. rewrite fit_apply, members_apply, disabled_apply.
  repeat split; auto. now rewrite live_apply.
Qed.
Lemma same_object_app : forall h cs a, a < length h -> same_object h (h ++ cs) a a.
Proof.
  intros h cs a H. unfold same_object, fit_of, members_of, disabled_of, is_live. rewrite get_app_l by auto. auto.
Qed.
Lemma same_object_trans : forall h1 h2 h3 a b c, same_object h1 h2 a b -> same_object h2 h3 b c -> same_object h1 h3 a c.
Proof. unfold same_object; intuition congruence. Qed.
Lemma nth_app_l : forall (h cs : heap) a, a < length h -> nth_error (h ++ cs) a = nth_error h a.
Proof. intros. now apply nth_error_app1. Qed.

Section Groups.
Variables (svd : svd_fn) (sha : mat3 -> nat) (same : bool) (w : option vec3).

(** the heap after a constructor call, whatever its outcome *)
Lemma group_frame : forall h args h' r, all_live h args ->
  GroupedOrientation svd same w h args = (h', r) ->
  (args = [] /\ h' = h /\ r = Raise ValueError) \/
  (args <> [] /\ exists c, h' = apply h (link (length h) (before_group h args)) ++ [c] /\
     (c = Partial None /\ ~ no_group h args /\ r = Raise GroupedPlaneError \/
      no_group h args /\ exists os, Forall2 (fun a o => get h a = Some o) args os /\
      match group_fit svd same w os with
      | Ok f => c = Live (mkObj f (Some args) None false) /\ r = Ok (length h)
      | Raise e => c = Partial (Some args) /\ r = Raise e
      | NonFinite => c = Partial (Some args) /\ r = NonFinite
      end)).
Proof.
  intros h args h' r HL H. destruct args as [|a t].
  - left. injection H as <- <-. auto.
  - right. assert (NE : a :: t <> []) by discriminate. set (args := a :: t) in *. clearbody args.
    split; auto. destruct (group_result svd same w h args HL NE) as (os & F & E). rewrite E in H.
    destruct (has_group h args) eqn:G.
    + injection H as <- <-. exists (Partial None). split; auto. left. repeat split; auto.
      intros N. apply has_group_false in N. congruence.
    + apply has_group_false in G. destruct (group_fit svd same w os) eqn:GF; injection H as <- <-;
        (eexists; split; [reflexivity|]; right; split; auto; exists os; rewrite GF; auto).
Qed.

(** what any run of the grouping loop preserves *)
Lemma make_groups_frame : forall groups h os gr h' l r, all_live h os ->
  make_groups svd sha same w h os gr groups = (h', l, r) ->
  length h <= length h' /\ all_live h' l /\
  (exists news, l = os ++ news /\ forall g, In g news -> length h <= g) /\
  (forall a, a < length h -> ~ In a os -> nth_error h' a = nth_error h a) /\
  (forall a, a < length h -> same_object h h' a a).
Proof.
  induction groups as [|us groups IH]; intros h os gr h' l r HL H; simpl in H.
  - injection H as <- <- <-. split; auto. split; auto. split; [exists []; rewrite app_nil_r; simpl; split; auto; tauto|].
    split; auto. intros. unfold same_object; auto.
  - assert (B : length h <= length h /\ all_live h os /\
      (exists news, os = os ++ news /\ forall g, In g news -> length h <= g) /\
      (forall a, a < length h -> ~ In a os -> nth_error h a = nth_error h a) /\
      (forall a, a < length h -> same_object h h a a)).
    { split; auto. split; auto. split; [exists []; rewrite app_nil_r; simpl; split; auto; tauto|].
      split; auto. intros. unfold same_object; auto. }
    destruct (find_all sha h os gr us) as [vals|e|] eqn:FA.
    2,3: injection H as <- <- <-; exact B.
    apply find_all_ok in FA.
    assert (IV : forall v, In v vals -> In v os).
    { intros v I. destruct (Forall2_right _ _ _ _ _ _ FA I) as (u & _ & E & _).
      apply first_with_some in E. tauto. }
    assert (HV : all_live h vals).
    { apply Forall_forall. intros v I. unfold all_live in HL. rewrite Forall_forall in HL. auto. }
    destruct (GroupedOrientation svd same w h vals) as [h1 r1] eqn:GO.
    destruct (group_frame _ _ _ _ HV GO) as [(-> & -> & ->)|(NE & c & -> & R)].
    { injection H as <- <- <-. exact B. }
    set (h0 := apply h (link (length h) (before_group h vals))) in *.
    assert (L0 : length h0 = length h) by apply apply_length.
    assert (SO : forall a, a < length h -> same_object h (h0 ++ [c]) a a).
    { intros a La. eapply same_object_trans; [apply same_object_apply|]. apply same_object_app. lia. }
    assert (FR : forall a, a < length h -> ~ In a os -> nth_error (h0 ++ [c]) a = nth_error h a).
    { intros a La Na. rewrite nth_app_l by lia. unfold h0. rewrite nth_apply, last_event_link.
      destruct (existsb (Nat.eqb a) (before_group h vals)) eqn:E; auto.
      exfalso. apply existsb_in, before_group_incl in E. apply Na, IV, E. }
    assert (AL : all_live (h0 ++ [c]) os).
    { apply Forall_forall. intros a I. destruct (SO a (all_live_lt _ _ _ HL I)) as (_ & _ & _ & K). apply K.
      unfold all_live in HL. rewrite Forall_forall in HL. auto. }
    assert (LEN : length (h0 ++ [c]) = S (length h)) by (rewrite app_length, L0; simpl; lia).
    destruct r1 as [g|e|].
    2,3: injection H as <- <- <-; split; [lia|]; split; auto; split; [exists []; rewrite app_nil_r; simpl; split; auto; tauto | auto].
    assert (C : exists o, c = Live o /\ g = length h).
    { destruct R as [(_ & _ & X)|(_ & ob & _ & R)]; [discriminate|].
      destruct (group_fit svd same w ob); destruct R as [-> X]; try discriminate. injection X as ->. eauto. }
    destruct C as (o & -> & ->).
    assert (HL1 : all_live (h0 ++ [Live o]) (os ++ [length h])).
    { apply Forall_app. split; auto. constructor; auto. eexists. rewrite <- L0, get_new. reflexivity. }
    destruct (IH _ _ _ _ _ _ HL1 H) as (A1 & A2 & (news & -> & A3) & A4 & A5).
    rewrite LEN in *. split; [lia|]. split; auto. split.
    { exists (length h :: news). rewrite <- app_assoc. split; auto. intros g [<-|I]; auto. apply A3 in I. lia. }
    split.
    + intros a La Na. rewrite A4; auto. intros I. apply in_app_iff in I. destruct I as [I|[I|[]]]; auto. lia.
    + intros a La. eapply same_object_trans; [apply SO; auto|]. apply A5. lia.
Qed.

Lemma make_groups_fail : forall groups h os gr h' l e,
  make_groups svd sha same w h os gr groups = (h', l, Raise e) ->
  exists gs1 us gs2 h1, groups = gs1 ++ us :: gs2 /\
    make_groups svd sha same w h os gr gs1 = (h1, l, Ok tt) /\
    ((find_all sha h1 l gr us = Raise e /\ h' = h1) \/
     exists vals, find_all sha h1 l gr us = Ok vals /\ GroupedOrientation svd same w h1 vals = (h', Raise e)).
Proof.
  induction groups as [|us groups IH]; intros h os gr h' l e H; simpl in H; [discriminate|].
  destruct (find_all sha h os gr us) as [vals|e'|] eqn:FA; try discriminate.
  - destruct (GroupedOrientation svd same w h vals) as [h1 [g|e'|]] eqn:GO; try discriminate.
    + destruct (IH _ _ _ _ _ _ H) as (gs1 & us' & gs2 & h2 & -> & M & X).
      exists (us :: gs1), us', gs2, h2. split; auto. split; auto. simpl. now rewrite FA, GO.
    + injection H as <- <- <-. exists [], us, groups, h. split; auto. split; auto. right. eauto.
  - injection H as <- <- <-. exists [], us, groups, h. split; auto.
Qed.
End Groups.

(** * create_groups = copy, reset, loop *)
Definition base_of (copy : bool) (h : heap) (os : list nat) : list nat :=
  if copy then seq (length h) (length os) else os.
Definition start_heap (copy : bool) (h : heap) (os : list nat) : heap :=
  if copy then h ++ map (fun a => nth a h (Partial None)) os else h.
Lemma create_unfold : forall svd sha copy same w h os groups,
  create_groups svd sha copy same w h os groups =
  let h0 := start_heap copy h os in let l := base_of copy h os in
  make_groups svd sha same w (apply h0 (reset_events h0 l)) l (concat (map (members_list h0) l)) groups.
Proof.
  intros. unfold create_groups, start_heap, base_of. destruct copy; simpl; rewrite reset_apply; reflexivity.
Qed.
Lemma start_length : forall copy h os, length h <= length (start_heap copy h os).
Proof. intros [|] h os; simpl; auto. rewrite app_length. lia. Qed.
Lemma start_old : forall copy h os a, a < length h -> nth_error (start_heap copy h os) a = nth_error h a.
Proof. intros [|] h os a H; simpl; auto. now apply nth_app_l. Qed.
Lemma start_copy : forall copy h os, all_live h os ->
  Forall2 (fun a b => get (start_heap copy h os) b = get h a) os (base_of copy h os).
Proof.
  intros [|] h os HL; simpl.
  - assert (K : forall os' pre, all_live h os' ->
      Forall2 (fun a b => get (h ++ pre ++ map (fun a => nth a h (Partial None)) os') b = get h a)
        os' (seq (length h + length pre) (length os'))).
    { induction os' as [|a t IH]; intros pre H; [constructor|]. inversion H as [|? ? L T]; subst. constructor.
      - unfold get. rewrite nth_error_app2 by lia. rewrite nth_error_app2 by lia.
        replace (length h + length pre - length h - length pre) with 0 by lia. simpl.
        pose proof (live_lt _ _ L). rewrite (nth_error_nth' h (Partial None)) by auto. reflexivity.
      - specialize (IH (pre ++ [nth a h (Partial None)]) T).
        rewrite app_length in IH. simpl in IH. replace (length h + (length pre + 1)) with (S (length h + length pre)) in IH by lia.
        rewrite <- app_assoc in IH. exact IH. }
    specialize (K os [] HL). rewrite Nat.add_0_r in K. exact K.
  - clear. induction os; constructor; auto.
Qed.
Lemma start_live : forall copy h os, all_live h os -> all_live (start_heap copy h os) (base_of copy h os).
Proof.
  intros copy h os HL. pose proof (start_copy copy h os HL) as F.
  apply Forall_forall. intros b I. destruct (Forall2_right _ _ _ _ _ _ F I) as (a & Ia & E).
  unfold all_live in HL. rewrite Forall_forall in HL. destruct (HL a Ia) as [o G]. exists o. congruence.
Qed.
Lemma live_apply_all : forall h evs os, all_live h os -> all_live (apply h evs) os.
Proof. intros h evs os H. eapply Forall_impl; [|exact H]. intros a. apply live_apply. Qed.

Lemma reset_events_in : forall h os e, In e (reset_events h os) <->
  exists o, In o os /\ (e = (o, None) \/ exists m, In m (members_list h o) /\ e = (m, Some o)).
Proof.
  intros h os e. unfold reset_events. rewrite in_concat. split.
  - intros (x & H & I). apply in_map_iff in H. destruct H as (o & <- & Io). exists o. split; auto.
    destruct I as [<-|I]; auto. right. apply in_link in I. destruct I as (m & A & B). eauto.
  - intros (o & Io & H). exists ((o, None) :: link o (members_list h o)). split.
    + apply in_map_iff. eauto.
    + destruct H as [->|(m & A & ->)]; [now left|]. right. apply in_link. eauto.
Qed.
Lemma members_list_some : forall h a ms, members_of h a = Some ms -> members_list h a = ms.
Proof. intros h a ms H. unfold members_list. now rewrite H. Qed.
Lemma members_list_in : forall h a m, In m (members_list h a) <-> exists ms, members_of h a = Some ms /\ In m ms.
Proof.
  intros h a m. unfold members_list. destruct (members_of h a) as [ms|]; split.
  - eauto.
  - intros (ms' & E & I). congruence.
  - intros [].
  - intros (ms' & E & I). discriminate.
Qed.
Lemma grouped_in : forall h os x, In x (concat (map (members_list h) os)) <->
  exists g ms, In g os /\ members_of h g = Some ms /\ In x ms.
Proof.
  intros h os x. rewrite in_concat. split.
  - intros (l & H & I). apply in_map_iff in H. destruct H as (g & <- & Ig).
    apply members_list_in in I. destruct I as (ms & E & I). eauto 6.
  - intros (g & ms & Ig & E & I). exists ms. split; auto. apply in_map_iff. exists g.
    split; auto. now apply members_list_some.
Qed.

(** * Well-formed heaps *)
Definition is_group (h : heap) (g : nat) : Prop :=
  exists c, nth_error h g = Some c /\ match c with Live o => o_members o <> None | Partial _ => True end.
Record wf (h : heap) : Prop := {
  wf_members : forall a ms m, members_of h a = Some ms -> In m ms -> is_live h m /\ members_of h m = None;
  wf_parent : forall a g, parent_of h a = Some g -> is_group h g;
  wf_fit : forall a f, fit_of h a = Some f -> p_arr f = centered (p_array f) }.

Lemma wf_apply : forall h evs, wf h -> (forall m g, In (m, Some g) evs -> is_group h g) -> wf (apply h evs).
Proof.
  intros h evs [M P F] E. split.
  - intros a ms m. rewrite !members_apply, live_apply. apply M.
  - intros a g H.
    assert (K : is_group h g).
    { unfold parent_of in H. rewrite get_apply in H. destruct (last_event evs a) as [p|] eqn:L.
      - destruct (get h a); [|discriminate]. simpl in H. subst p. apply last_event_in in L. eauto.
      - apply (P a). exact H. }
    destruct K as (c & N & C). unfold is_group. rewrite nth_apply, N.
    destruct (last_event evs g); simpl; eexists; split; eauto. destruct c; auto.
  - intros a f. rewrite fit_apply. apply F.
Qed.
Lemma is_group_app : forall h cs g, is_group h g -> is_group (h ++ cs) g.
Proof.
  intros h cs g (c & N & C). exists c. split; auto. rewrite nth_app_l; auto. apply nth_error_Some. congruence.
Qed.
Lemma get_app_cases : forall h c a, get (h ++ [c]) a =
  if a <? length h then get h a else if a =? length h then match c with Live o => Some o | _ => None end else None.
Proof.
  intros h c a. destruct (Nat.ltb_spec a (length h)).
  - now apply get_app_l.
  - destruct (Nat.eqb_spec a (length h)).
    + subst. apply get_new.
    + unfold get. rewrite nth_error_app2 by lia. destruct (a - length h) as [|k] eqn:E; [lia|]. now destruct k.
Qed.
Lemma wf_app : forall h c, wf h ->
  match c with
  | Partial _ => True
  | Live o => (forall ms m, o_members o = Some ms -> In m ms -> is_live h m /\ members_of h m = None) /\
              (forall g, o_parent o = Some g -> is_group h g) /\
              p_arr (o_fit o) = centered (p_array (o_fit o))
  end -> wf (h ++ [c]).
Proof.
  intros h c [M P F] C. split.
  - intros a ms m H I.
    assert (K : is_live h m /\ members_of h m = None).
    { unfold members_of in H. rewrite get_app_cases in H. destruct (a <? length h).
      - apply (M a ms); auto.
      - destruct (a =? length h); [|discriminate]. destruct c as [o|]; [|discriminate]. eapply C; eauto. }
    destruct K as [L N]. split; [now apply live_app|]. rewrite members_app_l; auto. now apply live_lt.
  - intros a g H. apply is_group_app. unfold parent_of in H. rewrite get_app_cases in H. destruct (a <? length h).
    + now apply (P a).
    + destruct (a =? length h); [|discriminate]. destruct c as [o|]; [|discriminate]. now apply C.
  - intros a f H. unfold fit_of in H. rewrite get_app_cases in H. destruct (a <? length h).
    + now apply (F a).
    + destruct (a =? length h); [|discriminate]. destruct c as [o|]; [|discriminate]. injection H as <-. apply C.
Qed.
(** adopting into a cell that is appended afterwards *)
Lemma wf_adopt : forall h bs c, wf h -> all_live h bs ->
  match c with Live o => o_members o <> None | Partial _ => True end ->
  wf (h ++ [c]) -> wf (apply h (link (length h) bs) ++ [c]).
Proof.
  intros h bs c W L G W'. rewrite <- apply_app_cell.
  - apply wf_apply; auto. intros m g I. apply in_link in I. destruct I as (m' & _ & E). injection E as _ ->.
    exists c. split; auto. rewrite nth_error_app2, Nat.sub_diag by lia. reflexivity.
  - intros e I. apply in_link in I. destruct I as (m & I & ->). simpl. eapply all_live_lt; eauto.
Qed.
Lemma group_fit_made : forall svd same w os f, group_fit svd same w os = Ok f -> p_arr f = centered (p_array f).
Proof.
  intros svd same w os f H. unfold group_fit in H.
  destruct (PCAOrientation svd (group_array same os) w None) as [f'|e|] eqn:E; simpl in H; try discriminate.
  injection H as <-. simpl. unfold PCAOrientation in E.
  destruct (run_svd svd (centered (group_array same os)) _) as [[[u s] v]|e|]; simpl in E; try discriminate.
  injection E as <-. reflexivity.
Qed.
Lemma fit_made : forall svd arr w ax f, PCAOrientation svd arr w ax = Ok f -> p_arr f = centered (p_array f).
Proof.
  intros svd arr w ax f E. unfold PCAOrientation in E.
  destruct (match ax with None => _ | Some _ => _ end) as [[[u s] v]|e|]; simpl in E; try discriminate.
  injection E as <-. reflexivity.
Qed.
Lemma wf_group : forall svd same w h args h' r, wf h -> all_live h args ->
  GroupedOrientation svd same w h args = (h', r) -> wf h'.
Proof.
  intros svd same w h args h' r W HL H.
  destruct (group_frame _ _ _ _ _ _ _ HL H) as [(-> & -> & ->)|(NE & c & -> & R)]; auto.
  assert (LB : all_live h (before_group h args)).
  { apply Forall_forall. intros a I. apply before_group_incl in I. unfold all_live in HL.
    rewrite Forall_forall in HL. apply HL, I. }
  destruct R as [(-> & _ & _)|(NG & os & F & R)].
  - apply wf_adopt; auto. apply wf_app; auto.
  - destruct (group_fit svd same w os) as [f|e|] eqn:GF; destruct R as [-> _].
    + apply wf_adopt; auto; [simpl; discriminate|]. apply wf_app; auto. simpl. refine (conj _ (conj _ _)).
      * intros ms m E I. injection E as <-. unfold all_live in HL. unfold no_group in NG. rewrite Forall_forall in *. auto.
      * discriminate.
      * eapply group_fit_made; eauto.
    + apply wf_adopt; auto. apply wf_app; auto.
    + apply wf_adopt; auto. apply wf_app; auto.
Qed.
Lemma wf_make_groups : forall svd sha same w groups h os gr h' l r, wf h -> all_live h os ->
  make_groups svd sha same w h os gr groups = (h', l, r) -> wf h'.
Proof.
  induction groups as [|us groups IH]; intros h os gr h' l r W HL H.
  - simpl in H. injection H as <- _ _. auto.
  - pose proof H as H'. simpl in H.
    destruct (find_all sha h os gr us) as [vals|e|] eqn:FA.
    2,3: injection H as <- _ _; auto.
    apply find_all_ok in FA.
    assert (HV : all_live h vals).
    { apply Forall_forall. intros v I. destruct (Forall2_right _ _ _ _ _ _ FA I) as (u & _ & E & _).
      apply first_with_some in E. unfold all_live in HL. rewrite Forall_forall in HL. now apply HL. }
    destruct (GroupedOrientation svd same w h vals) as [h1 r1] eqn:GO.
    pose proof (wf_group _ _ _ _ _ _ _ W HV GO) as W1.
    destruct r1 as [g|e|].
    2,3: injection H as <- _ _; auto.
    assert (S1 : make_groups svd sha same w h os gr [us] = (h1, os ++ [g], Ok tt)).
    { simpl. apply find_all_ok in FA. now rewrite FA, GO. }
    pose proof (make_groups_frame _ _ _ _ _ _ _ _ _ _ _ HL S1) as (_ & HL1 & _).
    eapply IH; eauto.
Qed.
Lemma wf_start : forall copy h os, wf h -> all_live h os -> wf (start_heap copy h os).
Proof.
  intros [|] h os W HL; simpl; auto.
  assert (K : forall os' cs, wf (h ++ cs) -> all_live h os' -> wf (h ++ cs ++ map (fun a => nth a h (Partial None)) os')).
  { induction os' as [|a t IH]; intros cs Wc H; simpl; [now rewrite app_nil_r|].
    inversion H as [|? ? L T]; subst.
    replace (cs ++ nth a h (Partial None) :: map (fun a => nth a h (Partial None)) t)
      with ((cs ++ [nth a h (Partial None)]) ++ map (fun a => nth a h (Partial None)) t) by (now rewrite <- app_assoc).
    apply IH; auto. rewrite app_assoc. apply wf_app; auto.
    pose proof (live_lt _ _ L) as LT. destruct L as [o G0].
    assert (G : get (h ++ cs) a = Some o) by (now rewrite get_app_l).
    unfold get in G0. rewrite (nth_error_nth' h (Partial None)) in G0 by auto.
    destruct (nth a h (Partial None)) as [o'|]; [|discriminate]. injection G0 as ->.
    destruct Wc as [M P F]. unfold members_of, parent_of, fit_of in *. refine (conj _ (conj _ _)).
    - intros ms m. specialize (M a ms m). rewrite G in M. exact M.
    - specialize (P a). rewrite G in P. exact P.
    - specialize (F a (o_fit o)). rewrite G in F. now apply F. }
  rewrite <- (app_nil_l (map _ os)). apply K; auto. now rewrite app_nil_r.
Qed.
