(** C221, C222: the notebook's page. *)
From Coq Require Import List Arith Bool Lia String Ascii.
From Verif Require Import MUi MNet MPage SpecPage PUi PNet3.
Import ListNotations.

Section Page.
  Variable attitudes : list attitude.
  Variable allow_groups : bool.
  Notation pstep := (page_step attitudes allow_groups).
  Notation prun := (page_run attitudes allow_groups).

  Definition value (s : page) : ideal :=
    mkIdeal (pg_groups s) (pg_zoomed s) (selection s) (ic_planes (pg_inter s)) (ic_poles (pg_inter s)).
  (** arrays are not shared, and no item is selected twice *)
  Definition sound (s : page) : Prop :=
    pg_sel s <> 0 /\ pg_sel s < pg_next s /\ pg_mem s 0 = attitudes /\ NoDup (ids (selection s)).

  Lemma run_snoc : forall l a, prun (l ++ [a]) = pstep (prun l) a.
  Proof. intros. unfold page_run. rewrite fold_left_app. reflexivity. Qed.

  Lemma changed_fields : forall s a s', changed attitudes allow_groups s a = Some s' ->
    pg_layers s' = pg_layers s /\ pg_planes s' = pg_planes s /\ pg_poles s' = pg_poles s.
  Proof.
    intros s a s' H. destruct a; cbn [changed] in H;
      repeat match goal with H : (if ?b then _ else _) = _ |- _ => destruct b end; try discriminate H; injection H as <-; auto.
  Qed.
  Lemma rendered_value : forall s s', value (rendered s s') = value s'.
  Proof. reflexivity. Qed.

  Lemma toggled_spec : forall sel d, NoDup (ids sel) ->
    match index_of d sel with None => (sel ++ [d])%list | Some i => splice1 i sel end = toggled sel d.
  Proof.
    intros sel d N. unfold toggled. pose proof (index_spec d sel) as X. destruct (index_of d sel) as [i|].
    - destruct X as (a & x & b & -> & <- & E & NA). rewrite splice_app, existsb_app. cbn [existsb].
      rewrite E, Nat.eqb_refl, orb_true_r. rewrite filter_app. cbn [filter]. rewrite E, Nat.eqb_refl. cbn [negb].
      unfold ids in N. rewrite map_app in N. cbn [map] in N. apply NoDup_remove_2 in N. rewrite in_app_iff in N. rewrite E in N.
      assert (G : forall l, ~ In (at_id d) (map at_id l) -> filter (fun x => negb (at_id x =? at_id d)%nat) l = l).
      { clear. induction l as [|y l IH]; intros H; [reflexivity|]. cbn [filter map In] in *.
        destruct (Nat.eqb_spec (at_id y) (at_id d)); [tauto|]. cbn [negb]. rewrite IH; tauto. }
      rewrite !G; tauto.
    - destruct (existsb (fun x => (at_id x =? at_id d)%nat) sel) eqn:Y; [exfalso|reflexivity].
      apply existsb_exists in Y. destruct Y as (y & I & E). apply Nat.eqb_eq in E. apply X. unfold ids. rewrite <- E. now apply in_map.
  Qed.
  Lemma toggled_nodup : forall sel d, NoDup (ids sel) -> NoDup (ids (toggled sel d)).
  Proof.
    intros sel d N. rewrite <- toggled_spec by auto.
    pose proof (select_one_spec true sel d N) as (H & _). unfold select_one in H. destruct (at_members d); exact H.
  Qed.

  Lemma listed_spec : forall s d, listed attitudes s d = true <-> In (at_id d) (map at_id attitudes) /\ (is_group d -> pg_groups s = true).
  Proof.
    intros s d. unfold listed, is_group. rewrite andb_true_iff, existsb_exists, in_map_iff. split.
    - intros ((x & I & E) & G). apply Nat.eqb_eq in E. split; [exists x; auto|]. destruct (at_members d); [auto|congruence].
    - intros ((x & E & I) & G). split; [exists x; split; [auto|now apply Nat.eqb_eq]|]. destruct (at_members d); [apply G; discriminate|reflexivity].
  Qed.
  Lemma no_selection_spec : forall s, no_selection s = true <-> selection s = [].
  Proof. intros s. unfold no_selection, selection. destruct (pg_mem s (pg_sel s)); split; congruence. Qed.
  Lemma zoom_spec : forall s, zoom_enabled attitudes s = true <-> attitudes = [] \/ selection s <> [].
  Proof.
    intros s. unfold zoom_enabled. destruct (no_selection s) eqn:E.
    - apply no_selection_spec in E. rewrite E. destruct attitudes; cbn [andb negb]; split; auto; [discriminate|intros [H|H]; congruence].
    - cbn [andb negb]. split; auto. intros _. right. intros H. apply no_selection_spec in H. congruence.
  Qed.
  Lemma write_same : forall m r l, write m r l r = l.
  Proof. intros. unfold write. now rewrite Nat.eqb_refl. Qed.
  Lemma write_other : forall m r l k, k <> r -> write m r l k = m k.
  Proof. intros. unfold write. destruct (Nat.eqb_spec k r); [contradiction|reflexivity]. Qed.

  Lemma step_does : forall s a, sound s -> does attitudes allow_groups (value s) a (value (pstep s a)) /\ sound (pstep s a).
  Proof.
    intros s a (S1 & S2 & S3 & S4). unfold page_step. destruct a as [d|d| | | | |c|]; cbn [changed].
    - destruct (listed attitudes s d) eqn:L.
      + pose proof L as L0. apply listed_spec in L. destruct L as (L1 & L2).
        assert (V : selection (rendered s (mkPage (pg_groups s) (pg_zoomed s) (pg_hovered s) (pg_sel s)
          (write (pg_mem s) (pg_sel s) (update_selection allow_groups (pg_mem s (pg_sel s)) [d]))
          (pg_next s) (pg_nexth s) (pg_inter s) (pg_layers s) (pg_planes s) (pg_poles s))) = select_one allow_groups (selection s) d).
        { unfold selection. cbn [rendered pg_mem pg_sel]. rewrite write_same. reflexivity. }
        split.
        * rewrite rendered_value. unfold value at 2. unfold selection at 1. cbn [pg_mem pg_sel pg_groups pg_zoomed pg_inter].
          rewrite write_same. unfold update_selection. cbn [fold_left]. unfold select_one. fold (selection s).
          destruct (match at_members d with Some _ => negb allow_groups | None => false end) eqn:M.
          -- apply does_not_click. right. destruct (at_members d) eqn:E; [|discriminate]. split; [unfold is_group; congruence|].
             right. now apply negb_true_iff.
          -- rewrite toggled_spec by auto. apply (does_click attitudes allow_groups (value s) d); auto.
             intros G. unfold is_group in G. destruct (at_members d); [now apply negb_false_iff|congruence].
        * unfold sound. rewrite V. cbn [rendered pg_sel pg_next pg_mem]. rewrite write_other by auto. repeat split; auto.
          unfold select_one. destruct (match at_members d with Some _ => negb allow_groups | None => false end); [exact S4|].
          rewrite toggled_spec by auto. now apply toggled_nodup.
      + split; [|unfold sound; auto]. apply does_not_click. destruct (in_dec Nat.eq_dec (at_id d) (map at_id attitudes)) as [I|I]; [right|auto].
        destruct (at_members d) as [ms|] eqn:E.
        * split; [unfold is_group; congruence|]. left. cbn [value id_groups]. destruct (pg_groups s) eqn:G; auto.
          assert (listed attitudes s d = true) by (apply listed_spec; auto). congruence.
        * assert (listed attitudes s d = true) by (apply listed_spec; split; auto; unfold is_group; congruence). congruence.
    - split; [|unfold sound; auto]. rewrite rendered_value. apply (does_hover attitudes allow_groups (value s)).
    - split; [|unfold sound; auto]. rewrite rendered_value. apply (does_leave attitudes allow_groups (value s)).
    - split; [|unfold sound; auto]. rewrite rendered_value. apply (does_groups attitudes allow_groups (value s)).
    - destruct (zoom_enabled attitudes s) eqn:Z.
      + split; [|unfold sound; auto]. rewrite rendered_value. apply (does_zoom attitudes allow_groups (value s)). now apply zoom_spec.
      + split; [|unfold sound; auto].
        assert (N : ~ (attitudes = [] \/ selection s <> [])) by (rewrite <- zoom_spec; congruence).
        apply does_not_zoom; [tauto|]. cbn [value id_sel]. destruct (selection s); [reflexivity|]. exfalso. apply N. right. discriminate.
    - destruct (no_selection s) eqn:Z.
      + apply no_selection_spec in Z. split; [|unfold sound; auto].
        replace (value s) with (mkIdeal (id_groups (value s)) (id_zoomed (value s)) [] (id_planes (value s)) (id_poles (value s))) at 2
          by (unfold value; rewrite Z; reflexivity).
        apply does_clear.
      + split.
        * rewrite rendered_value. unfold value at 2. unfold selection at 1. cbn [pg_mem pg_sel pg_groups pg_zoomed pg_inter]. rewrite write_same.
          apply (does_clear attitudes allow_groups (value s)).
        * unfold sound, selection. cbn [rendered pg_sel pg_next pg_mem]. rewrite write_same, write_other by lia. repeat split; [lia|lia|auto|constructor].
    - split; [|unfold sound; auto]. rewrite rendered_value. destruct c.
      + apply (does_planes attitudes allow_groups (value s)).
      + apply (does_poles attitudes allow_groups (value s)).
      + apply (does_vertical attitudes allow_groups (value s)).
    - split; [|unfold sound; auto]. rewrite rendered_value. apply does_turn.
  Qed.
  Lemma run_sound : forall l, sound (prun l).
  Proof.
    intros l. induction l as [|a l IH] using rev_ind.
    - unfold sound, selection. cbn. repeat split; [lia|lia|constructor].
    - rewrite run_snoc. now apply step_does.
  Qed.

  (** the two layers *)
  Definition drawn_in (planes : bool) (s : page) : option (list attitude) := if planes then pg_planes s else pg_poles s.
  Definition switched (planes : bool) : act := Control (if planes then SwitchPlanes else SwitchPoles).
  Definition on (planes : bool) (v : ideal) : bool := if planes then id_planes v else id_poles v.
  Definition layer (planes : bool) : props -> bool := if planes then pp_planes else pp_poles.
  Lemma drawn_rendered : forall b s s', drawn_in b (rendered s s') =
    if redrawn (layer b) (props_of s) (props_of s') then content (layer b) (pg_mem s') (props_of s') else drawn_in b s.
  Proof. intros [] s s'; reflexivity. Qed.
  Lemma layer_on : forall b s, layer b (props_of s) = on b (value s).
  Proof. intros [] s; reflexivity. Qed.
  Lemma content_meant : forall b s, sound s -> content (layer b) (pg_mem s) (props_of s) = meant attitudes (on b (value s)) (value s).
  Proof.
    intros b s (_ & _ & S3 & _). unfold content, meant. rewrite layer_on. destruct (on b (value s)); [|reflexivity].
    cbn [props_of pp_data value id_zoomed id_sel]. unfold data_ref. destruct (pg_zoomed s); [reflexivity|now rewrite S3].
  Qed.
  Lemma changed_sound : forall s a s', sound s -> changed attitudes allow_groups s a = Some s' -> sound s'.
  Proof.
    intros s a s' S H. pose proof (proj2 (step_does s a S)) as S'. unfold page_step in S'. rewrite H in S'. exact S'.
  Qed.

  (** Every action does to the page's values what it is meant to do. *)
Theorem C221_values : forall l, value (prun []) = mkIdeal true false [] false true /\
  forall a, does attitudes allow_groups (value (prun l)) a (value (prun (l ++ [a]))).
Proof. intros l. split; [reflexivity|]. intros a. rewrite run_snoc. apply step_does, run_sound. Qed.

(** The layer of hovered items and which arrays are drawn are always those of the current
    properties, though the page starts with nothing hovered (see C173). *)
Theorem C221_hovered : forall l, shows hovered_empty (props_of (prun l)) (pg_layers (prun l)).
Proof.
  intros l. induction l as [|a l IH] using rev_ind.
  - apply hovered_shows. repeat split.
  - rewrite run_snoc. unfold page_step. destruct (changed attitudes allow_groups (prun l) a) as [s'|] eqn:H; [|exact IH].
    set (s := prun l) in *. clearbody s. change (props_of (rendered s s')) with (props_of s'). cbn [rendered pg_layers].
    destruct (pg_hovered s) as [h|] eqn:P. { apply C173_update; [exact IH|]. left. cbn [props_of pp_hovered]. rewrite P. discriminate. }
    destruct (pg_hovered s') as [h'|] eqn:P'.
    + apply C173_update; [exact IH|]. right. destruct a; cbn [changed] in H;
        repeat match goal with H : (if ?b then _ else _) = _ |- _ => destruct b end; try discriminate H; injection H as <-;
        cbn [pg_hovered] in P'; try congruence. repeat split.
    + apply hovered_shows in IH. destruct IH as (I1 & I2 & I3). apply hovered_shows. unfold did_update.
      assert (E3 : ly_hovered (pg_layers s) = hovered_layer hovered_empty (props_of s')).
      { rewrite I3. unfold hovered_layer. cbn [props_of pp_hovered]. now rewrite P, P'. }
      cbn [props_of pp_hovered] in *. rewrite P, P'.
      cbn [props_of pp_data pp_planes pp_poles pp_center] in *.
      destruct (Nat.eqb_spec (data_ref s') (data_ref s)) as [D|D].
      * destruct (Bool.eqb (ic_planes (pg_inter s)) (ic_planes (pg_inter s'))) eqn:EP; cbn [negb];
        destruct (Bool.eqb (ic_poles (pg_inter s)) (ic_poles (pg_inter s'))) eqn:EO; cbn [negb];
        try apply Bool.eqb_prop in EP; try apply Bool.eqb_prop in EO;
        destruct (_ =? _)%nat; cbn [opt_neq update_planes update_poles ly_planes ly_poles ly_hovered pp_planes pp_poles pp_data];
        change (pp_planes (props_of s')) with (ic_planes (pg_inter s')); change (pp_poles (props_of s')) with (ic_poles (pg_inter s'));
        change (pp_data (props_of s')) with (data_ref s'); rewrite ?I1, ?I2, ?EP, ?EO, ?D; auto.
      * destruct (_ =? _)%nat; cbn [opt_neq update_planes update_poles ly_planes ly_poles ly_hovered pp_planes pp_poles pp_data]; auto.
Qed.

(** While all data are shown, both layers hold all attitudes, whatever was selected. *)
Theorem C221_all : forall l b, let v := value (prun l) in id_zoomed v = false ->
  drawn_in b (prun l) = if on b v then Some attitudes else None.
Proof.
  intros l b. cbv zeta. induction l as [|a l IH] using rev_ind.
  - intros _. destruct b; reflexivity.
  - rewrite run_snoc. unfold page_step. pose proof (run_sound l) as S. set (s := prun l) in *. clearbody s.
    destruct (changed attitudes allow_groups s a) as [s'|] eqn:H; [|exact IH]. pose proof (changed_sound s a s' S H) as S'.
    rewrite rendered_value, drawn_rendered. intros Z.
    assert (D' : data_ref s' = 0) by (unfold data_ref; cbn [value id_zoomed] in Z; now rewrite Z).
    destruct (redrawn (layer b) (props_of s) (props_of s')) eqn:R.
    + rewrite content_meant by auto. unfold meant. now rewrite Z.
    + unfold redrawn in R. apply orb_false_iff in R. destruct R as (R1 & R2). apply negb_false_iff in R1, R2.
      apply Nat.eqb_eq in R1. apply Bool.eqb_prop in R2. cbn [props_of pp_data] in R1. rewrite !layer_on in R2.
      assert (Z0 : pg_zoomed s = false).
      { unfold data_ref in R1 at 2. destruct (pg_zoomed s); auto. destruct S as (S1 & _). congruence. }
      rewrite IH by exact Z0. now rewrite R2.
Qed.

(** A layer holds what is meant right after it is switched or the data are exchanged ... *)
Theorem C221_redrawn : forall l b a, let v := value (prun l) in
  (a = switched b \/ (a = Zoom /\ (attitudes = [] \/ id_sel v <> [])) \/ (a = Clear /\ id_sel v <> [])) ->
  let w := value (prun (l ++ [a])) in drawn_in b (prun (l ++ [a])) = meant attitudes (on b w) w.
Proof.
  intros l b a v H w. pose proof (C221_all (l ++ [a]) b) as ALL. fold w in ALL. cbv zeta in ALL.
  destruct (id_zoomed w) eqn:ZW. 2: { rewrite ALL by reflexivity. unfold meant. now rewrite ZW. }
  unfold w in ZW |- *. clear ALL w. rewrite run_snoc in *. unfold v in H. clear v.
  pose proof (run_sound l) as S. set (s := prun l) in *. clearbody s.
  unfold page_step in *. destruct (changed attitudes allow_groups s a) as [s'|] eqn:C.
  - pose proof (changed_sound s a s' S C) as S'. rewrite rendered_value in *. rewrite drawn_rendered.
    assert (R : redrawn (layer b) (props_of s) (props_of s') = true).
    { unfold redrawn. apply orb_true_iff. destruct H as [->|[(-> & H)|(-> & H)]].
      - right. rewrite !layer_on. cbn [changed switched] in C. injection C as <-. destruct b; cbn; [destruct (ic_planes _)|destruct (ic_poles _)]; reflexivity.
      - left. cbn [changed] in C. destruct (zoom_enabled attitudes s); [|discriminate C]. injection C as <-. cbn [value id_zoomed pg_zoomed] in ZW.
        apply negb_true_iff, Nat.eqb_neq. cbn [props_of pp_data]. unfold data_ref. cbn [pg_zoomed pg_sel]. rewrite ZW.
        apply negb_true_iff in ZW. rewrite ZW. apply S.
      - left. cbn [changed] in C. destruct (no_selection s); [discriminate C|]. injection C as <-. cbn [value id_zoomed pg_zoomed] in ZW.
        apply negb_true_iff, Nat.eqb_neq. cbn [props_of pp_data]. unfold data_ref. cbn [pg_zoomed pg_sel]. rewrite ZW.
        destruct S as (_ & S2 & _). lia. }
    rewrite R. now apply content_meant.
  - exfalso. destruct H as [->|[(-> & H)|(-> & H)]]; cbn [changed switched] in C.
    + discriminate.
    + apply zoom_spec in H. rewrite H in C. discriminate.
    + destruct (no_selection s) eqn:N; [|discriminate]. apply no_selection_spec in N. contradiction.
Qed.
(** ... and is then left as it is. *)
Theorem C221_frozen : forall l b acts, (forall a, In a acts -> a <> switched b /\ a <> Zoom /\ a <> Clear) ->
  drawn_in b (prun (l ++ acts)) = drawn_in b (prun l).
Proof.
  intros l b acts. induction acts as [|a acts IH] using rev_ind; intros H. { now rewrite app_nil_r. }
  rewrite app_assoc, run_snoc. rewrite <- IH by (intros x I; apply H, in_app_iff; auto). destruct (H a) as (H1 & H2 & H3). { apply in_app_iff. right. left. reflexivity. }
  set (s := prun (l ++ acts)). clearbody s. unfold page_step. destruct (changed attitudes allow_groups s a) as [s'|] eqn:C; [|reflexivity].
  rewrite drawn_rendered. replace (redrawn (layer b) (props_of s) (props_of s')) with false; [reflexivity|symmetry].
  unfold redrawn. apply orb_false_iff.
  destruct a as [d|d| | | | |c|]; cbn [changed] in C; try contradiction;
    repeat match goal with H : (if ?b then _ else _) = _ |- _ => destruct b end; try discriminate C; injection C as <-;
    (split; [apply negb_false_iff, Nat.eqb_refl|]); try (apply negb_false_iff; destruct b; apply Bool.eqb_reflx).
  destruct b, c; try (exfalso; apply H1; reflexivity); apply negb_false_iff, Bool.eqb_reflx.
Qed.
(** So with only the selection shown, every click that changes the selection leaves the
    picture wrong. *)
Theorem C221_click : forall l b d, let v := value (prun l) in id_zoomed v = true -> on b v = true ->
  drawn_in b (prun l) = meant attitudes true v ->
  In (at_id d) (map at_id attitudes) -> (is_group d -> id_groups v = true /\ allow_groups = true) ->
  let w := value (prun (l ++ [Click d])) in
  id_sel w = toggled (id_sel v) d /\ drawn_in b (prun (l ++ [Click d])) = Some (id_sel v) /\
  drawn_in b (prun (l ++ [Click d])) <> meant attitudes (on b w) w.
Proof.
  intros l b d v Z O M I G w.
  assert (E : w = mkIdeal (id_groups v) (id_zoomed v) (toggled (id_sel v) d) (id_planes v) (id_poles v)).
  { destruct (C221_values l) as (_ & D). specialize (D (Click d)). fold v w in D. clearbody v w.
    inversion D as [x y H1 H2 H3 Q1 Q2 Q3|x y H1 Q1 Q2 Q3| | | | | | | | | |]; [reflexivity|].
    exfalso. destruct H1 as [H1|(H1 & H2)]; [contradiction|]. destruct (G H1) as (G1 & G2). subst. destruct H2; congruence. }
  assert (F : drawn_in b (prun (l ++ [Click d])) = Some (id_sel v)).
  { rewrite C221_frozen. { rewrite M. unfold meant. now rewrite Z. }
    intros a [<-|[]]. repeat split; discriminate. }
  rewrite F, E. cbn [id_sel]. split; [reflexivity|]. split; [reflexivity|]. unfold meant. cbn [id_zoomed id_sel].
  replace (on b _) with (on b v) by (destruct b; reflexivity). rewrite O, Z. intros H. injection H as H.
  assert (L : length (id_sel v) <> length (toggled (id_sel v) d)).
  { unfold toggled. destruct (existsb _ _) eqn:X.
    - apply existsb_exists in X. destruct X as (x & X1 & X2).
      assert (Q : forall m, In x m -> length (filter (fun y => negb (at_id y =? at_id d)%nat) m) < length m).
      { assert (Q0 : forall m, length (filter (fun y => negb (at_id y =? at_id d)%nat) m) <= length m).
        { induction m as [|y m IH]; cbn [filter length]; [lia|]. destruct (negb _); cbn [length]; lia. }
        induction m as [|y m IH]; [intros []|]. intros [->|J]; cbn [filter length].
        - rewrite X2. cbn [negb]. specialize (Q0 m). lia.
        - specialize (IH J). destruct (negb _); cbn [length]; lia. }
      specialize (Q _ X1). lia.
    - rewrite app_length. cbn [length]. lia. }
  apply L. f_equal. exact H.
Qed.
  Lemma clear_value : forall v w, does attitudes allow_groups v Clear w -> w = mkIdeal (id_groups v) (id_zoomed v) [] (id_planes v) (id_poles v).
  Proof. intros v w D. inversion D. reflexivity. Qed.
  Lemma other_value : forall v a w, does attitudes allow_groups v a w -> (forall d, a <> Click d) -> attitudes <> [] -> id_sel v = [] ->
    id_zoomed w = id_zoomed v /\ id_sel w = [] /\ (forall b, a <> switched b -> on b w = on b v).
  Proof.
    intros v a w D N A E. destruct D; cbn [id_zoomed id_sel]; repeat split; auto; try (exfalso; eapply N; reflexivity);
      try (intros []; reflexivity).
    - exfalso. tauto.
    - intros [] X; [contradiction X|]; reflexivity.
    - intros [] X; [|contradiction X]; reflexivity.
  Qed.
(** Clearing the selection while only it is shown empties the net, and "Show all data" is
    disabled: nothing brings the data back until an item is clicked. *)
Theorem C221_stuck : forall l acts, let v := value (prun l) in attitudes <> [] -> id_zoomed v = true -> id_sel v <> [] ->
  (forall d, ~ In (Click d) acts) ->
  let s := prun (l ++ Clear :: acts) in
  id_zoomed (value s) = true /\ id_sel (value s) = [] /\
  forall b, on b (value s) = true -> drawn_in b s = Some [].
Proof.
  intros l acts v A Z N. induction acts as [|a acts IH] using rev_ind; intros H s.
  - assert (E : value s = mkIdeal (id_groups v) (id_zoomed v) [] (id_planes v) (id_poles v)).
    { destruct (C221_values l) as (_ & D). apply clear_value, D. }
    split; [now rewrite E|]. split; [now rewrite E|]. intros b O. unfold s. rewrite C221_redrawn by (right; right; auto). fold s. rewrite O.
    unfold meant. rewrite E. cbn [id_zoomed id_sel]. now rewrite Z.
  - destruct IH as (I1 & I2 & I3). { intros d I. apply (H d). apply in_app_iff. auto. }
    assert (E : s = pstep (prun (l ++ Clear :: acts)) a). { unfold s. rewrite <- run_snoc, <- app_assoc. reflexivity. }
    assert (RS : prun ((l ++ Clear :: acts) ++ [a]) = s) by (rewrite run_snoc; auto).
    destruct (C221_values (l ++ Clear :: acts)) as (_ & D). specialize (D a). rewrite RS in D.
    set (t := l ++ Clear :: acts) in *. clearbody t.
    assert (NC : forall d, a <> Click d) by (intros d ->; apply (H d), in_app_iff; right; left; reflexivity).
    destruct (other_value _ _ _ D NC A I2) as (X1 & X2 & X3). rewrite I1 in X1.
    split; [exact X1|]. split; [exact X2|]. intros b O.
    destruct a as [d|d| | | | |c|]; try (exfalso; eapply NC; reflexivity).
    1,2,3,7: rewrite <- RS, C221_frozen by (intros a [<-|[]]; repeat split; discriminate);
      apply I3; rewrite <- X3 by discriminate; exact O.
    + assert (S0 : s = prun t). { rewrite E. unfold page_step. cbn [changed].
        assert (Q : zoom_enabled attitudes (prun t) = false). { destruct (zoom_enabled attitudes (prun t)) eqn:Q; auto. apply zoom_spec in Q. destruct Q as [Q|Q]; contradiction. }
        now rewrite Q. }
      rewrite S0 in *. auto.
    + assert (S0 : s = prun t). { rewrite E. unfold page_step. cbn [changed].
        assert (Q : no_selection (prun t) = true) by now apply no_selection_spec. now rewrite Q. }
      rewrite S0 in *. auto.
    + destruct (match c with SwitchPlanes => b | SwitchPoles => negb b | Vertical => false end) eqn:W.
      * assert (EC : Control c = switched b) by (destruct c, b; try discriminate W; reflexivity).
        rewrite <- RS, C221_redrawn by (left; exact EC). rewrite RS, O. unfold meant. now rewrite X1, X2.
      * rewrite <- RS, C221_frozen.
        { apply I3. rewrite <- X3; [exact O|]. unfold switched. destruct c, b; try discriminate W; discriminate. }
        intros a [<-|[]]. repeat split; try discriminate. unfold switched. destruct c, b; try discriminate W; discriminate.
Qed.
End Page.

(** The picture can be wrong: an item selected while only the selection is shown. *)
Theorem C221_refuted : exists attitudes allow_groups l b, let s := page_run attitudes allow_groups l in
  drawn_in b s <> meant attitudes (on b (value s)) (value s).
Proof.
  set (a := mkAtt 1 "a" None None). set (c := mkAtt 2 "c" None None).
  exists [a; c], true, [Click a; Zoom; Click c], false. cbn. discriminate.
Qed.
Example C221_ex : let a := mkAtt 1 "a" None None in let c := mkAtt 2 "c" (Some []) None in
  let run := page_run [a; c] true in
  drawn_in false (run [Click a; Zoom]) = Some [a] /\ selection (run [Click a; Zoom; Click c]) = [a; c] /\
  drawn_in false (run [Click a; Zoom; Click c]) = Some [a] /\
  drawn_in false (run [Click a; Zoom; Click c; Control SwitchPoles; Control SwitchPoles]) = Some [a; c] /\
  drawn_in false (run [Click a; Zoom; Clear; Zoom; Hover c; ShowGroups]) = Some [] /\
  drawn_in false (run [Click a; Zoom; Clear; Zoom; Click c; Zoom]) = Some [a; c].
Proof. cbn. repeat split. Qed.

(** * C222: the copied text *)
Notation slen := String.length.
Lemma slen_app : forall a b, slen (a ++ b)%string = (slen a + slen b)%nat.
Proof. induction a as [|c a IH]; intros b; [reflexivity|]. cbn [String.append String.length]. now rewrite IH. Qed.
Definition size (l : list string) : nat := fold_right (fun u n => slen u + 3 + n)%nat 0%nat l.
Lemma text_size : forall l, l <> [] -> slen (selection_text l) = S (size l).
Proof.
  intros l N. unfold selection_text. rewrite !slen_app. cbn [String.length].
  assert (G : forall u l, S (slen (String.concat "," (map (fun u => ("""" ++ u ++ """")%string) (u :: l)))) = size (u :: l)).
  { clear. intros u l. revert u. induction l as [|x l IH]; intros u.
    - cbn [map String.concat size fold_right]. rewrite !slen_app. cbn [String.length]. lia.
    - specialize (IH x). cbn [map] in IH. cbn [map String.concat]. rewrite !slen_app. cbn [String.length].
      change (size (u :: x :: l)) with (slen u + 3 + size (x :: l))%nat. rewrite <- IH. cbn [String.concat]. lia. }
  destruct l as [|u l]; [congruence|]. specialize (G u l). lia.
Qed.
Section Json.
  Variable hex : ascii -> ascii -> ascii -> ascii -> option ascii.
  Lemma body_size : forall b u, json_body hex b u -> (slen u <= slen b)%nat /\ (slen u = slen b -> all_plain u = true).
  Proof.
    induction 1 as [|c b u P H IH|e k b u P H IH|h1 h2 h3 h4 c b u P H IH]; cbn [String.length all_plain]; split; auto; try lia.
    intros E. rewrite P. cbn [andb]. apply IH. lia.
  Qed.
  Lemma elements_size : forall t l, json_elements hex t l -> (size l <= S (slen t))%nat /\ (size l = S (slen t) -> forallb all_plain l = true).
  Proof.
    induction 1 as [w w' b u W W' B|w w' b u t l W W' B H IH]; destruct (body_size b u B) as (B1 & B2);
      rewrite ?slen_app; cbn [String.length forallb].
    - cbn [size fold_right]. split; [lia|]. intros E. rewrite B2 by lia. reflexivity.
    - change (size (u :: l)) with (slen u + 3 + size l)%nat. destruct IH as (I1 & I2). split; [lia|]. intros E. rewrite B2, I2 by lia. reflexivity.
  Qed.
  Lemma plain_body : forall u, all_plain u = true -> json_body hex u u.
  Proof.
    induction u as [|c u IH]; intros H; [constructor|]. cbn [all_plain] in H. apply andb_true_iff in H. destruct H. constructor; auto.
  Qed.
  Lemma plain_elements : forall l u, forallb all_plain (u :: l) = true ->
    json_elements hex (String.concat "," (map (fun u => ("""" ++ u ++ """")%string) (u :: l))) (u :: l).
  Proof.
    induction l as [|x l IH]; intros u H; cbn [forallb] in H; apply andb_true_iff in H; destruct H as (H1 & H2).
    - apply (one_element hex "" "" u u); auto. now apply plain_body.
    - pose proof (IH x H2) as J. cbn [map] in J. cbn [map String.concat].
      assert (E : forall a b c d : string, ((a ++ b) ++ c = a ++ b ++ c)%string).
      { intros a b c _. induction a as [|z a Ia]; [reflexivity|]. cbn [String.append]. now rewrite Ia. }
      pose proof (more_elements hex "" "" u u _ _ eq_refl eq_refl (plain_body u H1) J) as M.
      cbn [String.append] in M |- *. rewrite (E u """"%string _ ""%string). exact M.
  Qed.

(** The text copied reads as the uids selected, taken as JSON, exactly if none of them has a
    quote, a backslash or a control character. *)
Theorem C222_json : forall sel, json_array hex (selection_text sel) sel <-> forall u, In u sel -> all_plain u = true.
Proof.
  intros sel. split.
  - intros J. destruct sel as [|x l]. { intros u []. }
    pose proof (text_size (x :: l) ltac:(discriminate)) as T. remember (x :: l) as sel eqn:Q.
    assert (X : forallb all_plain sel = true).
    { remember (selection_text sel) as t eqn:Et. destruct J as [w W|t l' J]; [discriminate Q|].
      destruct (elements_size t l' J) as (J1 & J2). rewrite !slen_app in T. cbn [String.length] in T. apply J2. lia. }
    rewrite forallb_forall in X. exact X.
  - intros H. destruct sel as [|x l]. { apply (no_elements hex ""). reflexivity. }
    apply (some_elements hex). apply plain_elements. apply forallb_forall. exact H.
Qed.
End Json.

(** Two selections without quotes in their uids have the same text only if they are equal;
    with quotes they may. *)
Lemma split_quote : forall u v a b, has_quote u = false -> has_quote v = false ->
  (u ++ String """" a = v ++ String """" b)%string -> u = v /\ a = b.
Proof.
  induction u as [|c u IH]; intros [|d v] a b U V H; cbn [String.append has_quote] in *.
  - injection H as H. auto.
  - injection H as <- H. rewrite Ascii.eqb_refl in V. discriminate.
  - injection H as -> H. rewrite Ascii.eqb_refl in U. discriminate.
  - injection H as -> H. apply orb_false_iff in U, V. destruct (IH v a b) as (-> & ->); tauto || auto.
Qed.
Theorem C222_distinct : forall sel sel', (forall u, In u sel \/ In u sel' -> has_quote u = false) ->
  selection_text sel = selection_text sel' -> sel = sel'.
Proof.
  assert (E : forall a b c : string, ((a ++ b) ++ c = a ++ b ++ c)%string).
  { intros a b c. induction a as [|z a Ia]; [reflexivity|]. cbn [String.append]. now rewrite Ia. }
  set (q := fun u => ("""" ++ u ++ """")%string).
  assert (G : forall l l' x y, (forall u, In u (x :: l) \/ In u (y :: l') -> has_quote u = false) ->
    (String.concat "," (map q (x :: l)) ++ "]" = String.concat "," (map q (y :: l')) ++ "]")%string -> x :: l = y :: l').
  { induction l as [|z l IH]; intros [|z' l'] x y H; cbn [map String.concat]; intros X;
      change (q x) with ("""" ++ x ++ """")%string in X; change (q y) with ("""" ++ y ++ """")%string in X;
      rewrite !E in X; cbn [String.append] in X; injection X as X;
      (apply split_quote in X; [|apply H; simpl; auto|apply H; simpl; auto]); destruct X as (-> & X).
    - reflexivity.
    - discriminate X.
    - discriminate X.
    - injection X as X. f_equal. apply (IH l' z z'); [|exact X]. intros u [I|I]; apply H; simpl in *; tauto. }
  intros [|x l] [|y l'] H X; unfold selection_text in X; fold q in X.
  - reflexivity.
  - exfalso. cbn [map String.concat String.append] in X. injection X as X. destruct (map q l'); discriminate X.
  - exfalso. cbn [map String.concat String.append] in X. injection X as X. destruct (map q l); discriminate X.
  - cbn [String.append] in X. injection X as X. now apply G.
Qed.
Theorem C222_distinct_refuted : exists sel sel', selection_text sel = selection_text sel' /\ sel <> sel'.
Proof. exists ["a"; "b"]%string, ["a"",""b"]%string. split; [reflexivity|discriminate]. Qed.
Example C222_ex : selection_text ["a1"; "b 2"]%string = "[""a1"",""b 2""]"%string /\
  forall hex, json_array hex (selection_text ["a1"; "b 2"]%string) ["a1"; "b 2"]%string.
Proof. split; [reflexivity|]. intros hex. apply C222_json. intros u [<-|[<-|[]]]; reflexivity. Qed.

Print Assumptions C221_values.
Print Assumptions C221_hovered.
Print Assumptions C221_all.
Print Assumptions C221_redrawn.
Print Assumptions C221_frozen.
Print Assumptions C221_click.
Print Assumptions C221_stuck.
Print Assumptions C221_refuted.
Print Assumptions C222_json.
Print Assumptions C222_distinct.
Print Assumptions C222_distinct_refuted.
