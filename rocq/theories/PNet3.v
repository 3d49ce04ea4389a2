(** Properties of the labels' placement, of the stereonet component and of the data panel. *)
From Coq Require Import Reals Lra Lia Psatz List Arith String Bool.
From Verif Require Import RVec Trig SpecPlane LSvd LFit LAngles MPca MAxes MSphere LRecon MFront SpecStereo SpecFront MUi MNet SpecNet PNet PNet2.
Import ListNotations.
Open Scope R_scope.

(** * C172: the labels follow rotations, not the centre *)
Lemma labels_step : forall s c, c <> Mount -> c <> GlobalLabels ->
  (n_labels (net_step s c) = None <-> n_labels s = None) /\ n_mounted (net_step s c) = n_mounted s /\ n_pending (net_step s c) = n_pending s.
Proof.
  intros s c NM NG. destruct c; try contradiction; cbn [net_step]; (split; [|split; reflexivity]); try reflexivity.
  unfold with_labels, with_proj. cbn [n_labels]. destruct (n_labels s); cbn [option_map]; split; (discriminate || reflexivity).
Qed.
(** The labels exist once the net is mounted and they were asked for, in either order. *)
Theorem C172_installed : forall cs, n_labels (net_run net0 cs) <> None <-> In Mount cs /\ In GlobalLabels cs.
Proof.
  assert (DM : forall c : call, {c = Mount} + {c <> Mount}) by (intros []; (left; reflexivity) || (right; discriminate)).
  assert (DG : forall c : call, {c = GlobalLabels} + {c <> GlobalLabels}) by (intros []; (left; reflexivity) || (right; discriminate)).
  assert (G : forall cs s, (n_labels s <> None -> n_mounted s = true) -> (n_pending s = true -> n_mounted s = true -> n_labels s <> None) ->
     (n_labels (net_run s cs) <> None <->
      n_labels s <> None \/ ((n_mounted s = true \/ In Mount cs) /\ In GlobalLabels cs) \/ (n_pending s = true /\ In Mount cs))).
  { unfold net_run. induction cs as [|c cs IH]; intros s I1 I2; cbn [fold_left In].
    { split; [now left|]. intros [H|[[_ []]|[_ []]]]. exact H. }
    destruct (DM c) as [->|NM].
    - assert (L : n_labels (net_step s Mount) <> None <-> n_pending s = true \/ n_labels s <> None).
      { cbn [net_step n_labels]. destruct (n_pending (setScale None s)) eqn:P; change (n_pending (setScale None s)) with (n_pending s) in P; rewrite P.
        - split; [now left|discriminate].
        - change (n_labels (setScale None s)) with (n_labels s). split; [now right|intros [H|H]; [discriminate|exact H]]. }
      rewrite IH.
      + rewrite L. change (n_mounted (net_step s Mount)) with true. change (n_pending (net_step s Mount)) with (n_pending s).
        split.
        * intros [[H|H]|[[_ H]|[H H']]]; auto 8.
        * intros [H|[[_ [H|H]]|[H _]]]; auto 8; discriminate.
      + reflexivity.
      + intros H _. apply L. now left.
    - destruct (DG c) as [->|NG].
      + cbn [net_step]. destruct (n_mounted s) eqn:M.
        * rewrite IH; unfold with_labels; cbn [n_labels n_mounted n_pending]; [|intros _; exact M|discriminate].
          split; [|left; discriminate]. intros _. right; left. split; [now left|now left].
        * rewrite IH; cbn [n_labels n_mounted n_pending]; [|intros H; specialize (I1 H); discriminate|discriminate].
          assert (NL : n_labels s = None) by (destruct (n_labels s); [specialize (I1 ltac:(discriminate)); discriminate|reflexivity]).
          rewrite NL. split.
          -- intros [H|[[[H|H] H']|[_ H]]]; try contradiction; try discriminate; right; left; split; auto.
          -- intros [H|[[[H|[H|H]] _]|[_ [H|H]]]]; try contradiction; try discriminate; right; right; split; auto.
      + destruct (labels_step s c NM NG) as (A & B & C). rewrite IH.
        * rewrite B, C. split.
          -- intros [H|[[H H']|[H H']]]; [left; rewrite <- A; exact H|right; left; tauto|right; right; tauto].
          -- intros [H|[[H [H'|H']]|[H [H'|H']]]]; [left; rewrite A; exact H|congruence|right; left; split; [destruct H as [H|[H|H]]; [now left|congruence|now right]|exact H']|congruence|right; right; tauto].
        * rewrite B. intros H. apply I1. rewrite <- A. exact H.
        * rewrite B, C. intros H1 H2. rewrite A. auto. }
  intros cs. rewrite G; [|intros H; exfalso; apply H; reflexivity|discriminate].
  cbn [net0 n_labels n_mounted n_pending]. split.
  - intros [H|[[[H|H] H']|[H _]]]; [exfalso; now apply H|discriminate|auto|discriminate].
  - intros [H H']. right; left. auto.
Qed.

(** After a rotation, such as each step of a drag, every label is where the net draws its
    point, and stays there while only the margin, the clipping or the frame are set. *)
Definition harmless (c : call) : bool := match c with Rotate _ | Margin _ | Clip _ | Rectangular _ _ | GlobalLabels => true | _ => false end.
Theorem C172_rotate : forall cs r cs', In Mount cs -> In GlobalLabels cs -> forallb harmless cs' = true ->
  let n := net_run net0 (cs ++ Rotate r :: cs') in
  exists placed, n_labels n = Some placed /\ forall l, project placed (label_at l) = project (n_proj n) (label_at l).
Proof.
  intros cs r cs' M G H n. unfold n, net_run. rewrite fold_left_app. cbn [fold_left]. fold (net_run net0 cs).
  assert (L : n_labels (net_run net0 cs) <> None) by (apply C172_installed; auto).
  set (s := net_step (net_run net0 cs) (Rotate r)).
  assert (S : n_labels s = Some (n_proj s)).
  { unfold s, net_step, with_labels, with_proj. cbn [n_labels n_proj]. destruct (n_labels (net_run net0 cs)); [reflexivity|contradiction]. }
  exists (n_proj (fold_left net_step cs' s)). split; [|reflexivity]. clearbody s. clear -H S. revert s S H.
  induction cs' as [|c cs' IH]; intros s S H; cbn [fold_left]; [exact S|]. cbn [forallb] in H. apply andb_true_iff in H. destruct H as [H1 H2].
  apply IH; [|exact H2]. destruct c; try discriminate H1; cbn [net_step]; try exact S.
  - unfold with_labels, with_proj. cbn [n_labels n_proj]. rewrite S. reflexivity.
  - destruct (n_mounted s); [reflexivity|exact S].
Qed.
(** Setting the centre redraws the net but not the labels: they stay right only when it is
    the rotation there already was. *)
Theorem C172_center : forall s r, n_labels s = Some (n_proj s) ->
  (n_labels (net_step s (Center r)) = Some (n_proj (net_step s (Center r))) <-> r = pr_rotate (n_proj s)).
Proof.
  intros s r L. cbn [net_step]. unfold with_proj. cbn [n_labels n_proj]. rewrite L. unfold set_rotate. split.
  - intros E. injection E as E. apply (f_equal pr_rotate) in E. cbn [pr_rotate] in E. now symmetry.
  - intros ->. destruct (n_proj s); reflexivity.
Qed.
(** The "Vertical" button of the notebook: the east is drawn to the right of the centre, as before,
    but Up at the centre and its label still above. *)
Theorem C172_button_refuted : exists m, let n := net_run net0 [Size 400; Margin m; Mount; GlobalLabels; Center (0, -90, 0)] in
  exists placed y, n_labels n = Some placed /\ project placed (label_at LUp) = Some (200, y) /\ y < 200 /\
    project (n_proj n) (label_at LUp) = Some (200, 200).
Proof.
  exists 25. intros n.
  destruct (C168_mounted [Size 400; Margin 25] eq_refl) as (T & Ro & S & _).
  change ([Size 400; Margin 25] ++ [Mount])%list with [Size 400; Margin 25; Mount] in T, Ro, S.
  cbn [last_of size_of margin_of angle_of rotation_of] in T, Ro, S. specialize (S eq_refl).
  set (p := n_proj (net_run net0 [Size 400; Margin 25; Mount])) in *.
  assert (N1 : n_labels n = Some p) by reflexivity.
  assert (N2 : n_proj n = set_rotate (0, -90, 0) p) by reflexivity.
  assert (U : enu (label_at LUp) = V3 0 0 1) by apply label_dirs.
  assert (TU : turned (0, 0, 0) = mkView (V3 0 (-1) 0) (V3 1 0 0) (V3 0 0 1)).
  { unfold turned. destruct (turned_base 0 0) as (E1 & E2 & E3). rewrite E1, E2, E3, rad_0, cos_0, sin_0.
    f_equal; apply vec3_eq; unfold vsub, vadd, vscale; cbn [vx vy vz]; ring. }
  exists p, (200 - 135 * sqrt 2). split; [exact N1|]. split; [|split].
  - rewrite (project_value p _ _ S); rewrite Ro, TU, U; unfold dot; cbn [v_centre v_right v_up vx vy vz]; [|lra].
    rewrite T. cbn [fst snd]. replace (2 / (1 + (0 * 0 + 0 * -1 + 1 * 0))) with 2 by field. do 2 f_equal; field.
  - assert (0 < sqrt 2) by (apply sqrt_lt_R0; lra). lra.
  - rewrite N2. rewrite (C170_vertical (set_rotate (0, -90, 0) p) _ (label_at LUp) 0 0 S eq_refl ltac:(lra)).
    + unfold set_rotate. cbn [pr_translate]. rewrite T. cbn [fst snd]. replace (radians (0 / 2)) with 0 by (unfold radians; field).
      rewrite sin_0. do 2 f_equal; field.
    + rewrite U. unfold leaning. rewrite rad_0, cos_0, sin_0. apply vec3_eq; cbn [vx vy vz]; ring.
Qed.
(** A label is centred on its point within 20 pixels of the middle of the net, and else
    written on the outer side; mirrored positions have mirrored anchors, except that the
    point 20 pixels left of the middle counts as in the middle and the one 20 pixels right
    of it does not. *)
Theorem C172_anchor : forall width d,
  (text_anchor width (width / 2 + d) = 1%nat <-> -20 <= d < 20) /\
  (text_anchor width (width / 2 + d) = 0%nat <-> d < -20) /\ (text_anchor width (width / 2 + d) = 2%nat <-> 20 <= d) /\
  (text_anchor width (width / 2 - d) = (2 - text_anchor width (width / 2 + d))%nat <-> Rabs d <> 20).
Proof.
  intros width d. unfold text_anchor.
  repeat (match goal with |- context [Rlt_dec ?a ?b] => destruct (Rlt_dec a b) end);
    (split; [split; intros H; try discriminate H; try reflexivity; lra|]);
    (split; [split; intros H; try discriminate H; try reflexivity; lra|]);
    (split; [split; intros H; try discriminate H; try reflexivity; lra|]);
    (split; [intros H; try discriminate H; unfold Rabs; destruct (Rcase_abs d); lra|
      intros H; try reflexivity; exfalso; apply H; unfold Rabs; destruct (Rcase_abs d); lra]).
Qed.
Example C172_anchor_ex : text_anchor 400 180 = 1%nat /\ text_anchor 400 220 = 2%nat /\ text_anchor 400 20 = 0%nat.
Proof.
  destruct (C172_anchor 400 (-20)) as (A & _). destruct (C172_anchor 400 20) as (_ & _ & B & _). destruct (C172_anchor 400 (-180)) as (_ & C & _).
  split; [|split].
  - replace 180 with (400 / 2 + -20) by lra. apply A. lra.
  - replace 220 with (400 / 2 + 20) by lra. apply B. lra.
  - replace 20 with (400 / 2 + -180) by lra. apply C. lra.
Qed.
Example C172_ex : let n := net_run net0 [GlobalLabels; Mount; Center (1, 2, 0); Rotate (0, -90, 0); Margin 3] in
  exists placed, n_labels n = Some placed /\ forall l, project placed (label_at l) = project (n_proj n) (label_at l).
Proof. apply (C172_rotate [GlobalLabels; Mount; Center (1, 2, 0)] (0, -90, 0) [Margin 3]); [right; left; reflexivity|left; reflexivity|reflexivity]. Qed.

Lemma last_cons : forall {A} (q : A) ps p, last (q :: ps) p = last ps q.
Proof.
  intros A q ps. revert q. induction ps as [|r ps IH]; intros q p; [reflexivity|].
  change (last (q :: r :: ps) p) with (last (r :: ps) p). rewrite (IH r p), (IH r q). reflexivity.
Qed.

(** * C173: the component's layers follow its props *)
(** What should be on screen for given props *)
Definition shows (is_empty : nat -> bool) (p : props) (l : layers) : Prop :=
  (ly_planes l = if pp_planes p then Some (pp_data p) else None) /\
  (ly_poles l = if pp_poles p then Some (pp_data p) else None) /\
  (forall h a b, ly_hovered l = Some (h, a, b) <->
     pp_hovered p = Some h /\ is_empty h = false /\ a = pp_planes p /\ b = pp_poles p /\ (a = true \/ b = true)).
Lemma hovered_spec : forall e p h a b, hovered_layer e p = Some (h, a, b) <->
  pp_hovered p = Some h /\ e h = false /\ a = pp_planes p /\ b = pp_poles p /\ (a = true \/ b = true).
Proof.
  intros e p h a b. unfold hovered_layer. destruct (pp_hovered p) as [x|]; [|split; [discriminate|intros (H & _); discriminate]].
  destruct (e x) eqn:E. { split; [discriminate|]. intros (H & E' & _). injection H as ->. congruence. }
  destruct (pp_planes p) eqn:A, (pp_poles p) eqn:B; cbn [orb]; split;
    try (intros H; injection H as <- <- <-; repeat split; auto; fail);
    try (intros (H & _ & -> & -> & _); injection H as ->; reflexivity).
  - discriminate.
  - intros (_ & _ & -> & -> & [H|H]); discriminate.
Qed.
Lemma hovered_shows : forall e p l, shows e p l <->
  (ly_planes l = if pp_planes p then Some (pp_data p) else None) /\ (ly_poles l = if pp_poles p then Some (pp_data p) else None) /\
  ly_hovered l = hovered_layer e p.
Proof.
  intros e p l. unfold shows. split; intros (A & B & C); (split; [exact A|]; split; [exact B|]).
  - destruct (ly_hovered l) as [[[h a] b]|].
    + symmetry. apply hovered_spec. now apply C.
    + destruct (hovered_layer e p) as [[[h a] b]|] eqn:H; [|reflexivity]. apply hovered_spec in H. now apply C in H.
  - rewrite C. intros. apply hovered_spec.
Qed.
Lemma opt_neq_false : forall a b, opt_neq a b = false -> a = b.
Proof. intros [x|] [y|]; cbn [opt_neq]; try discriminate; auto. intros H. apply negb_false_iff, Nat.eqb_eq in H. now subst. Qed.

(** An update leaves on screen what the new props ask for, provided the items hovered before
    were not null, or the data and the switches are as before. *)
Theorem C173_update : forall e prev p l, shows e prev l ->
  (pp_hovered prev <> None \/ (pp_data p = pp_data prev /\ pp_planes p = pp_planes prev /\ pp_poles p = pp_poles prev)) ->
  shows e p (did_update e prev p l).
Proof.
  intros e prev p l S H. apply hovered_shows in S. destruct S as (S1 & S2 & S3). apply hovered_shows. unfold did_update.
  destruct (Nat.eqb_spec (pp_data p) (pp_data prev)) as [D|D].
  - destruct (Bool.eqb (pp_planes prev) (pp_planes p)) eqn:EP; cbn [negb].
    + apply Bool.eqb_prop in EP. destruct (Bool.eqb (pp_poles prev) (pp_poles p)) eqn:EO; cbn [negb].
      * apply Bool.eqb_prop in EO. set (l1 := if (pp_center prev =? pp_center p)%nat then l else _).
        assert (L1 : ly_planes l1 = ly_planes l /\ ly_poles l1 = ly_poles l /\ ly_hovered l1 = ly_hovered l) by (unfold l1; destruct (_ =? _)%nat; auto).
        destruct L1 as (L1 & L2 & L3). destruct (opt_neq (pp_hovered prev) (pp_hovered p)) eqn:N.
        -- unfold update_hovered. cbn [ly_planes ly_poles ly_hovered]. rewrite L1, L2, S1, S2, D, EP, EO. auto.
        -- apply opt_neq_false in N. rewrite L1, L2, L3, S1, S2, S3. unfold hovered_layer. rewrite D, EP, EO, N. auto.
      * assert (HN : pp_hovered prev <> None).
        { destruct H as [H|(_ & _ & H)]; [exact H|]. rewrite H, Bool.eqb_reflx in EO. discriminate. }
        destruct (pp_hovered prev) as [h|]; [|contradiction]. cbn [opt_neq].
        destruct (_ =? _)%nat; unfold update_hovered, update_poles; cbn [ly_planes ly_poles ly_hovered]; rewrite S1, EP, D; auto.
    + assert (HN : pp_hovered prev <> None).
      { destruct H as [H|(_ & H & _)]; [exact H|]. rewrite H, Bool.eqb_reflx in EP. discriminate. }
      destruct (pp_hovered prev) as [h|]; [|contradiction].
      destruct (Bool.eqb (pp_poles prev) (pp_poles p)) eqn:EO; cbn [negb opt_neq].
      * apply Bool.eqb_prop in EO.
        destruct (_ =? _)%nat; unfold update_hovered, update_planes; cbn [ly_planes ly_poles ly_hovered]; rewrite S2, EO, D; auto.
      * destruct (_ =? _)%nat; unfold update_hovered, update_planes, update_poles; cbn [ly_planes ly_poles ly_hovered]; auto.
  - assert (HN : pp_hovered prev <> None) by (destruct H as [H|(H & _)]; [exact H|contradiction]).
    destruct (pp_hovered prev) as [h|]; [|contradiction]. cbn [opt_neq].
    destruct (_ =? _)%nat; unfold update_hovered, update_planes, update_poles; cbn [ly_planes ly_poles ly_hovered]; auto.
Qed.
(** So with an array of hovered items that is never null and is empty at first, the layers
    always show the current props. *)
Theorem C173_always : forall e p ps, (exists h, pp_hovered p = Some h /\ e h = true) -> Forall (fun q => pp_hovered q <> None) ps ->
  shows e (last ps p) (updates e p (did_mount p) ps).
Proof.
  intros e p ps (h & P0 & E0) F.
  assert (S : shows e p (did_mount p)).
  { apply hovered_shows. unfold did_mount, update_planes, update_poles. cbn [ly_planes ly_poles ly_hovered].
    split; [reflexivity|]. split; [reflexivity|]. unfold hovered_layer. rewrite P0, E0. reflexivity. }
  assert (N : pp_hovered p <> None) by (rewrite P0; discriminate).
  generalize (did_mount p), S. clear S P0 E0. revert p N. induction ps as [|q ps IH]; intros p N l S; cbn [updates]; [exact S|].
  inversion F as [|? ? F1 F2]; subst. specialize (IH F2 q F1 (did_update e p q l) (C173_update e p q l S (or_introl N))).
  now rewrite last_cons.
Qed.
(** From null, hovering over an item in the same update as a change of data draws nothing; and items
    hovered when the component is mounted are not drawn. *)
Theorem C173_null_refuted : exists e prev p l, shows e prev l /\ ~ shows e p (did_update e prev p l).
Proof.
  exists (fun _ => false), (mkProps 0 true false None 0), (mkProps 1 true false (Some 7%nat) 0), (mkLayers (Some 0%nat) None None None).
  split.
  - apply hovered_shows. repeat split.
  - intros S. apply hovered_shows in S. destruct S as (_ & _ & S). discriminate S.
Qed.
Theorem C173_mount_refuted : exists e p, ~ shows e p (did_mount p).
Proof.
  exists (fun _ => false), (mkProps 0 true false (Some 7%nat) 0). intros S. apply hovered_shows in S. destruct S as (_ & _ & S). discriminate S.
Qed.

(** The centre given at first is never applied; later ones are, unless none differs. *)
Theorem C173_center : forall e ps p,
  ly_center (updates e p (did_mount p) ps) =
    if forallb (fun q => (pp_center q =? pp_center p)%nat) ps then None else Some (pp_center (last ps p)).
Proof.
  intros e.
  assert (U : forall prev p l, ly_center (did_update e prev p l) = if (pp_center prev =? pp_center p)%nat then ly_center l else Some (pp_center p)).
  { intros prev p l. unfold did_update, update_planes, update_poles, update_hovered.
    destruct (pp_data p =? pp_data prev)%nat; cbn [negb];
      repeat match goal with |- context [if ?b then _ else _] => match b with (pp_center _ =? _)%nat => fail 1 | _ => destruct b end end;
      destruct (pp_center prev =? pp_center p)%nat; cbn [ly_center]; reflexivity. }
  assert (G : forall ps p l, (exists c, ly_center l = Some c /\ c = pp_center p) -> ly_center (updates e p l ps) = Some (pp_center (last ps p))).
  { induction ps as [|q ps IH]; intros p l (c & L & C); cbn [updates]; [cbn [last]; congruence|].
    rewrite IH; [now rewrite last_cons|]. rewrite U. destruct (Nat.eqb_spec (pp_center p) (pp_center q)) as [E|E].
    - exists c. split; [exact L|congruence].
    - exists (pp_center q). auto. }
  assert (N : forall ps p l, ly_center l = None -> ly_center (updates e p l ps) =
    if forallb (fun q => (pp_center q =? pp_center p)%nat) ps then None else Some (pp_center (last ps p))).
  { induction ps as [|q ps IH]; intros p l L; cbn [updates forallb]; [exact L|].
    rewrite Nat.eqb_sym. destruct (Nat.eqb_spec (pp_center p) (pp_center q)) as [E|E]; cbn [andb].
    - rewrite IH by (rewrite U, E, Nat.eqb_refl; exact L). rewrite E, last_cons. reflexivity.
    - rewrite G; [now rewrite last_cons|]. exists (pp_center q). split; [|reflexivity]. rewrite U.
      destruct (Nat.eqb_spec (pp_center p) (pp_center q)); [contradiction|reflexivity]. }
  intros ps p. apply N. reflexivity.
Qed.
(** The two switches toggle; each click on "Vertical" is a new centre. *)
Fixpoint clicks (c : click) (l : list click) : nat :=
  match l with [] => 0 | x :: t => ((match c, x with SwitchPlanes, SwitchPlanes | SwitchPoles, SwitchPoles | Vertical, Vertical => 1 | _, _ => 0 end) + clicks c t)%nat end.
Theorem C173_switches : forall planes poles cs, let s := fold_left inter_step cs (inter0 planes poles) in
  ic_planes s = xorb (match planes with Some b => b | None => false end) (Nat.odd (clicks SwitchPlanes cs)) /\
  ic_poles s = xorb (match poles with Some b => b | None => true end) (Nat.odd (clicks SwitchPoles cs)) /\
  ic_center s = clicks Vertical cs.
Proof.
  intros planes poles cs s.
  assert (G : forall cs s, ic_planes (fold_left inter_step cs s) = xorb (ic_planes s) (Nat.odd (clicks SwitchPlanes cs)) /\
     ic_poles (fold_left inter_step cs s) = xorb (ic_poles s) (Nat.odd (clicks SwitchPoles cs)) /\
     ic_center (fold_left inter_step cs s) = (ic_center s + clicks Vertical cs)%nat).
  { clear. induction cs as [|c cs IH]; intros s; cbn [fold_left clicks].
    { rewrite Nat.odd_0, !xorb_false_r, Nat.add_0_r. auto. }
    destruct (IH (inter_step s c)) as (A & B & C). rewrite A, B, C.
    destruct c; cbn [inter_step ic_planes ic_poles ic_center Nat.add]; rewrite ?Nat.odd_succ, <- ?Nat.negb_odd;
      (split; [|split; [|lia]]); try reflexivity; destruct (ic_planes s), (ic_poles s), (Nat.odd (clicks SwitchPlanes cs)), (Nat.odd (clicks SwitchPoles cs)); reflexivity. }
  unfold s. destruct (G cs (inter0 planes poles)) as (A & B & C). rewrite A, B, C. auto.
Qed.
Example C173_ex : let e := fun h => (h =? 0)%nat in
  let p := mkProps 1 true false (Some 0%nat) 5 in let q := mkProps 2 true true (Some 3%nat) 6 in
  updates e p (did_mount p) [q] = mkLayers (Some 2%nat) (Some 2%nat) (Some (3%nat, true, true)) (Some 6%nat) /\
  fold_left inter_step [SwitchPoles; Vertical; SwitchPoles; SwitchPoles] (inter0 None None) = mkInter false false 1.
Proof. split; reflexivity. Qed.

(** * C174: settings of the opacity *)
Definition domain_of (c : oc_call) := match c with SetDomain d => Some d | _ => None end.
Definition max_of (c : oc_call) := match c with SetMax v => Some v | _ => None end.
Definition getter (c : oc_call) : bool := match c with GetMax | GetDomain | GetAngularError => true | _ => false end.
(** Only the domain counts; reading a setting back raises TypeError. *)
Theorem C174_settings : forall k cs, (exists c, In c cs /\ getter c = true) /\ oc_run oc0 cs = Raise TypeError \/
  (forall c, In c cs -> getter c = false) /\
  exists s, oc_run oc0 cs = Ok s /\ oc_max s = last_of max_of cs 5 /\
    forall e, oc_fill k s e = alpha_scale k (last_of domain_of cs 5) e.
Proof.
  intros k cs. change (last_of domain_of cs 5) with (last_of domain_of cs (oc_dom oc0)).
  change (last_of max_of cs 5) with (last_of max_of cs (oc_max oc0)). generalize oc0 as s. induction cs as [|c cs IH]; intros s; cbn [oc_run last_of].
  - right. split; [intros c []|]. exists s. split; [|split]; reflexivity.
  - destruct (getter c) eqn:G.
    { left. split; [exists c; split; [now left|exact G]|]. destruct c; try discriminate G; reflexivity. }
    assert (E : exists s', oc_step s c = Ok s' /\ oc_dom s' = match domain_of c with Some y => y | None => oc_dom s end /\
      oc_max s' = match max_of c with Some y => y | None => oc_max s end).
    { destruct c; try discriminate G; eexists; (split; [reflexivity|]); split; reflexivity. }
    destruct E as (s' & E1 & E2 & E3). rewrite E1. cbn [rbind]. rewrite <- E2, <- E3. destruct (IH s') as [[(x & I & X) R]|[N (s2 & R & F)]].
    + left. split; [exists x; split; [now right|exact X]|exact R].
    + right. split; [intros x [<-|I]; auto|]. exists s2. auto.
Qed.
(** max() does not move the error beyond which planes are faintest. *)
Theorem C174_max_refuted : exists v k s, 0 < k /\ oc_run oc0 [SetMax v] = Ok s /\ 5 < v /\ oc_fill k s 5 = 1 / 10 /\ oc_fill k s 5 = oc_fill k s v.
Proof.
  exists 10, 1, (mkOc 5 10). split; [lra|]. split; [reflexivity|]. split; [lra|]. unfold oc_fill, alpha_scale. cbn [oc_dom].
  assert (P5 : 0 < pow0 1 5) by (unfold pow0; destruct (Req_EM_T 5 0); [lra|apply exp_pos]).
  rewrite (Rmin_left 5 5), (Rmin_left 5 10), Rmax_right by lra.
  split; [|reflexivity]. field. lra.
Qed.
Example C174_ex : oc_run oc0 [SetMax 3; SetDomain 20; SetMax 4] = Ok (mkOc 20 4) /\ oc_run oc0 [SetDomain 2; GetMax] = Raise TypeError.
Proof. split; reflexivity. Qed.

(** * C175: the data panel *)
(** "No errors recorded" appears exactly when both errors are null or below a hundredth. *)
Definition negligible (v : jsval) : Prop := v = Null \/ exists x, v = Num x /\ x < 1 / 100.
Theorem C175_recorded : forall fmt mn mx, angular_errors fmt mn mx = None <-> negligible mn /\ negligible mx.
Proof.
  intros fmt mn mx. unfold angular_errors.
  assert (B : forall v, below v (1 / 100) = true <-> negligible v).
  { intros [| |x]; unfold below, negligible.
    - split; [discriminate|]. intros [H|(x & H & _)]; discriminate.
    - destruct (Rlt_dec 0 (1 / 100)); [|lra]. split; [now left|reflexivity].
    - destruct (Rlt_dec x (1 / 100)); split; try reflexivity; try discriminate; [right; exists x; auto|].
      intros [H|(y & H & Y)]; [discriminate|]. injection H as ->. contradiction. }
  rewrite <- !B. destruct (below mn (1 / 100)), (below mx (1 / 100)); cbn [andb]; split; try discriminate; try (intros [? ?]; discriminate); auto.
Qed.
(** Otherwise the numbers are shown; one that is missing looks like a zero. *)
Theorem C175_shown : forall fmt mn mx, ~ (negligible mn /\ negligible mx) ->
  exists a b, angular_errors fmt mn mx = Some (a, b) /\ (forall x, mn = Num x -> a = fmt x) /\ (forall x, mx = Num x -> b = fmt x).
Proof.
  intros fmt mn mx H. rewrite <- (C175_recorded fmt) in H. destruct (angular_errors fmt mn mx) as [[a b]|] eqn:E; [|now exfalso; apply H].
  exists a, b. split; [reflexivity|]. unfold angular_errors in E. destruct (below mn (1 / 100) && below mx (1 / 100)); [discriminate|].
  injection E as <- <-. split; intros x ->; reflexivity.
Qed.
Theorem C175_missing_refuted : forall fmt, exists mn mx mx', mn = Undef /\ mx = Undef /\ mx' = Num 0 /\
  angular_errors fmt mn mx = angular_errors fmt mn mx' /\ angular_errors fmt mn mx <> None.
Proof. intros fmt. exists Undef, Undef, (Num 0). repeat split; try reflexivity. discriminate. Qed.
Example C175_ex : forall fmt, angular_errors fmt (Num (1 / 1000)) (Num 4) = Some (fmt (1 / 1000), fmt 4) /\ angular_errors fmt Null (Num 0) = None.
Proof.
  intros fmt. unfold angular_errors, below. destruct (Rlt_dec (1 / 1000) (1 / 100)); [|lra]. destruct (Rlt_dec 4 (1 / 100)); [lra|].
  destruct (Rlt_dec 0 (1 / 100)); [|lra]. split; reflexivity.
Qed.

Print Assumptions C172_installed.
Print Assumptions C172_rotate.
Print Assumptions C172_center.
Print Assumptions C172_button_refuted.
Print Assumptions C172_anchor.
Print Assumptions C173_update.
Print Assumptions C173_always.
Print Assumptions C173_null_refuted.
Print Assumptions C173_mount_refuted.
Print Assumptions C173_center.
Print Assumptions C173_switches.
Print Assumptions C174_settings.
Print Assumptions C174_max_refuted.
Print Assumptions C175_recorded.
Print Assumptions C175_shown.
Print Assumptions C175_missing_refuted.
