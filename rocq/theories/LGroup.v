(** Lemmas about the grouping heap. *)
From Coq Require Import Reals List Arith Lia Bool.
From Verif Require Import RVec MPca LPca MGroup.
Import ListNotations.
Open Scope nat_scope.

(** * Reading after writing *)
Lemma alter_length : forall h a f, length (alter a f h) = length h.
Proof. induction h as [|c h IH]; intros [|a] f; simpl; auto. Qed.
Lemma nth_alter : forall h a f b,
  nth_error (alter a f h) b = if a =? b then option_map f (nth_error h b) else nth_error h b.
Proof.
  induction h as [|c h IH]; intros a f b.
  - destruct a, b; simpl; auto. now destruct (a =? b).
  - destruct a as [|a], b as [|b]; simpl; auto.
Qed.
Lemma nth_set_parent : forall h a p b, nth_error (set_parent h a p) b =
  if a =? b then option_map (on_live (with_parent p)) (nth_error h b) else nth_error h b.
Proof. intros; apply nth_alter. Qed.
Lemma get_set_parent : forall h a p b, get (set_parent h a p) b =
  if a =? b then option_map (with_parent p) (get h b) else get h b.
Proof.
  intros h a p b. unfold get. rewrite nth_set_parent. destruct (a =? b); auto.
  destruct (nth_error h b) as [[o|]|]; reflexivity.
Qed.
Lemma get_set_disabled : forall h a b, get (set_disabled h a) b =
  if a =? b then option_map with_disabled (get h b) else get h b.
Proof.
  intros h a b. unfold get, set_disabled. rewrite nth_alter. destruct (a =? b); auto.
  destruct (nth_error h b) as [[o|]|]; reflexivity.
Qed.
Lemma get_lt : forall h a o, get h a = Some o -> a < length h.
Proof.
  intros h a o H. apply nth_error_Some. unfold get in H. destruct (nth_error h a); discriminate.
Qed.
Lemma get_app_l : forall h t a, a < length h -> get (h ++ t) a = get h a.
Proof. intros. unfold get. now rewrite nth_error_app1. Qed.

(** * Sequences of parent writes *)
Definition event := (nat * option nat)%type.
Definition apply (h : heap) (evs : list event) : heap :=
  fold_left (fun h e => set_parent h (fst e) (snd e)) evs h.
(** the last value written to the parent of [b] *)
Fixpoint last_event (evs : list event) (b : nat) : option (option nat) :=
  match evs with
  | [] => None
  | e :: t => match last_event t b with
              | Some p => Some p
              | None => if fst e =? b then Some (snd e) else None
              end
  end.
Lemma last_event_app : forall e1 e2 b, last_event (e1 ++ e2) b =
  match last_event e2 b with Some p => Some p | None => last_event e1 b end.
Proof.
  induction e1 as [|e e1 IH]; intros e2 b; simpl.
  - now destruct (last_event e2 b).
  - rewrite IH. now destruct (last_event e2 b).
Qed.
Lemma last_event_in : forall evs b p, last_event evs b = Some p -> In (b, p) evs.
Proof.
  induction evs as [|[a q] t IH]; simpl; intros b p H; [discriminate|].
  destruct (last_event t b) eqn:E.
  - right. apply IH. congruence.
  - destruct (Nat.eqb_spec a b); [|discriminate]. left. congruence.
Qed.
Lemma last_event_none : forall evs b, last_event evs b = None <-> ~ In b (map fst evs).
Proof.
  induction evs as [|[a q] t IH]; simpl; intros b; [split; auto|].
  destruct (last_event t b) eqn:E.
  - split; [discriminate|]. intros H. exfalso. apply H. right.
    apply in_map_iff. exists (b, o). split; auto. now apply last_event_in.
  - apply IH in E. destruct (Nat.eqb_spec a b); split; intuition discriminate.
Qed.
Lemma apply_length : forall evs h, length (apply h evs) = length h.
Proof.
  induction evs as [|e t IH]; intros h; auto.
  change (apply h (e :: t)) with (apply (set_parent h (fst e) (snd e)) t). rewrite IH. apply alter_length.
Qed.
Lemma on_live_parent : forall p q c, on_live (with_parent p) (on_live (with_parent q) c) = on_live (with_parent p) c.
Proof. intros p q [o|m]; reflexivity. Qed.
Lemma nth_apply : forall evs h b, nth_error (apply h evs) b =
  match last_event evs b with
  | Some p => option_map (on_live (with_parent p)) (nth_error h b)
  | None => nth_error h b
  end.
Proof.
  induction evs as [|[a p] t IH]; intros h b; auto.
  change (apply h ((a, p) :: t)) with (apply (set_parent h a p) t). rewrite IH, nth_set_parent. simpl.
  destruct (last_event t b); destruct (a =? b); auto.
  destruct (nth_error h b); simpl; auto. now rewrite on_live_parent.
Qed.
Lemma get_apply : forall evs h b, get (apply h evs) b =
  match last_event evs b with
  | Some p => option_map (with_parent p) (get h b)
  | None => get h b
  end.
Proof.
  intros evs h b. unfold get. rewrite nth_apply. destruct (last_event evs b); auto.
  destruct (nth_error h b) as [[o'|]|]; reflexivity.
Qed.
Lemma apply_app : forall e1 e2 h, apply h (e1 ++ e2) = apply (apply h e1) e2.
Proof. intros. unfold apply. now rewrite fold_left_app. Qed.

(** * Observations of an object *)
Definition parent_of (h : heap) (a : nat) : option nat :=
  match get h a with Some o => o_parent o | None => None end.
Definition members_of (h : heap) (a : nat) : option (list nat) :=
  match get h a with Some o => o_members o | None => None end.
Definition disabled_of (h : heap) (a : nat) : bool :=
  match get h a with Some o => o_disabled o | None => false end.
Definition fit_of (h : heap) (a : nat) : option pca := option_map o_fit (get h a).
Definition is_live (h : heap) (a : nat) : Prop := exists o, get h a = Some o.
Definition all_live (h : heap) (os : list nat) : Prop := Forall (is_live h) os.

Lemma members_apply : forall h evs a, members_of (apply h evs) a = members_of h a.
Proof.
  intros. unfold members_of. rewrite get_apply. destruct (last_event evs a); auto.
  destruct (get h a); reflexivity.
Qed.
Lemma fit_apply : forall h evs a, fit_of (apply h evs) a = fit_of h a.
Proof.
  intros. unfold fit_of. rewrite get_apply. destruct (last_event evs a); auto.
  destruct (get h a); reflexivity.
Qed.
Lemma disabled_apply : forall h evs a, disabled_of (apply h evs) a = disabled_of h a.
Proof.
  intros. unfold disabled_of. rewrite get_apply. destruct (last_event evs a); auto.
  destruct (get h a); reflexivity.
Qed.
Lemma live_apply : forall h evs a, is_live (apply h evs) a <-> is_live h a.
Proof.
  intros. unfold is_live. rewrite get_apply. destruct (last_event evs a); [|tauto].
  destruct (get h a); simpl; split; intros [x H]; eauto; discriminate.
Qed.
Lemma parent_apply : forall h evs a, is_live h a -> parent_of (apply h evs) a =
  match last_event evs a with Some p => p | None => parent_of h a end.
Proof.
  intros h evs a [o H]. unfold parent_of. rewrite get_apply, H. destruct (last_event evs a); reflexivity.
Qed.
Lemma live_lt : forall h a, is_live h a -> a < length h.
Proof. intros h a [o H]. eapply get_lt; eauto. Qed.

(** * The loops as event lists *)
Definition link (g : nat) (ms : list nat) : list event := map (fun m => (m, Some g)) ms.
Lemma relink_apply : forall ms h g, relink h ms g = apply h (link g ms).
Proof. induction ms as [|m t IH]; intros; simpl; auto. Qed.

Definition members_list (h : heap) (a : nat) : list nat :=
  match members_of h a with Some ms => ms | None => [] end.
Definition reset_events (h : heap) (os : list nat) : list event :=
  concat (map (fun o => (o, None) :: link o (members_list h o)) os).
Lemma reset_apply : forall os h gr,
  reset h os gr = (apply h (reset_events h os), gr ++ concat (map (members_list h) os)).
Proof.
  assert (K : forall os h h' gr, (forall a, members_of h' a = members_of h a) ->
    reset h' os gr = (apply h' (reset_events h os), gr ++ concat (map (members_list h) os))).
  { induction os as [|o t IH]; intros h h' gr E; simpl.
    - now rewrite app_nil_r.
    - pose proof (members_apply h' [(o, None)] o) as M. simpl in M. unfold members_of in M at 1.
      rewrite E in M.
      assert (E1 : forall a, members_of (set_parent h' o None) a = members_of h a).
      { intros a. rewrite <- E. apply (members_apply h' [(o, None)]). }
      unfold members_list at 1 3. rewrite <- M.
      destruct (get (set_parent h' o None) o) as [ob|] eqn:G.
      + destruct (o_members ob) as [ms|].
        * rewrite relink_apply, (IH h).
          -- rewrite <- app_assoc, apply_app. reflexivity.
          -- intros a. rewrite members_apply. apply E1.
        * rewrite (IH h) by auto. simpl. reflexivity.
      + rewrite (IH h) by auto. reflexivity. }
  intros. now apply K.
Qed.

(** arguments before the first group *)
Fixpoint before_group (h : heap) (args : list nat) : list nat :=
  match args with
  | [] => []
  | a :: t => match members_of h a with Some _ => [] | None => a :: before_group h t end
  end.
Definition no_group (h : heap) (args : list nat) : Prop := Forall (fun a => members_of h a = None) args.
Definition has_group (h : heap) (args : list nat) : bool :=
  existsb (fun a => match members_of h a with Some _ => true | None => false end) args.
Lemma has_group_false : forall h args, has_group h args = false <-> no_group h args.
Proof.
  intros h args. unfold no_group. induction args as [|a t IH]; simpl.
  - split; auto.
  - destruct (members_of h a) eqn:E; simpl.
    + split; [discriminate|]. intros H. inversion H. congruence.
    + rewrite IH. split; intros H; [constructor; auto | now inversion H].
Qed.
Lemma before_group_all : forall h args, no_group h args -> before_group h args = args.
Proof.
  intros h args H. induction H as [|a t E H IH]; simpl; auto. now rewrite E, IH.
Qed.
Lemma before_group_incl : forall h args a, In a (before_group h args) -> In a args /\ members_of h a = None.
Proof.
  induction args as [|b t IH]; simpl; intros a H; [tauto|].
  destruct (members_of h b) eqn:E; simpl in H; [tauto|].
  destruct H as [<-|H]; [auto|]. apply IH in H. tauto.
Qed.
Lemma adopt_apply : forall args h self, all_live h args ->
  adopt h self args = (apply h (link self (before_group h args)),
                       if has_group h args then Raise GroupedPlaneError else Ok tt).
Proof.
  assert (K : forall args h h' self, all_live h args ->
    (forall a, members_of h' a = members_of h a) -> (forall a, is_live h' a <-> is_live h a) ->
    adopt h' self args = (apply h' (link self (before_group h args)),
                       if has_group h args then Raise GroupedPlaneError else Ok tt)).
  { induction args as [|a t IH]; intros h h' self HL E L; simpl; auto.
    inversion HL as [|? ? L0 LT]; subst. apply L in L0. destruct L0 as [o G]. rewrite G.
    rewrite <- (E a). unfold members_of at 1 2. rewrite G. destruct (o_members o); auto.
    rewrite (IH h).
    - reflexivity.
    - exact LT.
    - intros b. rewrite <- E. apply (members_apply h' [(a, Some self)]).
    - intros b. rewrite <- L. apply (live_apply h' [(a, Some self)]). }
  intros. apply K; auto. reflexivity.
Qed.

Lemma get_all_some : forall h args, all_live h args ->
  exists os, get_all h args = Some os /\ Forall2 (fun a o => get h a = Some o) args os.
Proof.
  intros h args H. induction H as [|a t [o G] H (os & E & F)]; simpl.
  - exists []. auto.
  - rewrite G, E. exists (o :: os). auto.
Qed.

(** heap after building a group: the arguments before the first group are
    adopted, and the new cell is [c] *)
Lemma apply_app_cell : forall h c evs, (forall e, In e evs -> fst e < length h) ->
  apply (h ++ [c]) evs = apply h evs ++ [c].
Proof.
  intros h c evs. revert h. induction evs as [|[a p] t IH]; intros h H; auto.
  assert (A : a < length h) by (apply (H (a, p)); now left).
  change (apply (h ++ [c]) ((a, p) :: t)) with (apply (set_parent (h ++ [c]) a p) t).
  change (apply h ((a, p) :: t)) with (apply (set_parent h a p) t). rewrite <- IH.
  - f_equal. unfold set_parent. clear -A. revert a A.
    induction h as [|x h IH]; intros [|a] A; simpl in *; try lia; auto. rewrite IH; auto. lia.
  - intros e He. unfold set_parent. rewrite alter_length. apply H. now right.
Qed.
Lemma alter_last : forall h c f, alter (length h) f (h ++ [c]) = h ++ [f c].
Proof. induction h as [|x h IH]; intros; simpl; auto. now rewrite IH. Qed.
Lemma members_app : forall h c a, a < length h -> members_of (h ++ [c]) a = members_of h a.
Proof. intros. unfold members_of. now rewrite get_app_l. Qed.
Lemma before_group_app : forall h c args, all_live h args ->
  before_group (h ++ [c]) args = before_group h args /\ has_group (h ++ [c]) args = has_group h args.
Proof.
  intros h c args H. induction H as [|a t L H [IH1 IH2]]; simpl; auto.
  rewrite members_app by (now apply live_lt). destruct (members_of h a); simpl; rewrite ?IH1, ?IH2; auto.
Qed.
Lemma group_result : forall svd same w h args, all_live h args -> args <> [] ->
  exists os, Forall2 (fun a o => get h a = Some o) args os /\
  GroupedOrientation svd same w h args =
    (apply h (link (length h) (before_group h args)) ++
       [if has_group h args then Partial None else
        match group_fit svd same w os with
        | Ok f => Live (mkObj f (Some args) None false)
        | _ => Partial (Some args)
        end],
     if has_group h args then Raise GroupedPlaneError else
     match group_fit svd same w os with Ok _ => Ok (length h) | Raise e => Raise e | NonFinite => NonFinite end).
Proof.
  intros svd same w h args HL NE. destruct (get_all_some h args HL) as (os & E & F).
  exists os. split; auto. unfold GroupedOrientation. destruct args as [|a0 t]; [tauto|]. clear NE.
  set (args := a0 :: t) in *. rewrite E.
  assert (HL' : all_live (h ++ [Partial None]) args).
  { eapply Forall_impl; [|exact HL]. intros a L. pose proof (live_lt _ _ L). destruct L as [o G].
    exists o. now rewrite get_app_l. }
  destruct (before_group_app h (Partial None) args HL) as [B1 B2].
  rewrite adopt_apply, B1, B2 by auto.
  rewrite apply_app_cell.
  2:{ intros e He. unfold link in He. apply in_map_iff in He. destruct He as (b & <- & Hb). simpl.
      apply before_group_incl in Hb. unfold all_live in HL. rewrite Forall_forall in HL. apply live_lt, HL, Hb. }
  destruct (has_group h args); auto.
  set (h1 := apply h _). assert (Lh : length h1 = length h) by apply apply_length.
  rewrite <- Lh. rewrite !alter_last.
  destruct (group_fit svd same w os); rewrite ?alter_last; reflexivity.
Qed.

Lemma apply_app_cells : forall cs h evs, (forall e, In e evs -> fst e < length h) ->
  apply (h ++ cs) evs = apply h evs ++ cs.
Proof.
  intros cs. induction cs as [|c cs IH] using rev_ind; intros h evs H.
  - now rewrite !app_nil_r.
  - rewrite !app_assoc, apply_app_cell, IH; auto.
    intros e He. rewrite app_length. apply H in He. lia.
Qed.
Lemma in_link : forall g ms e, In e (link g ms) <-> exists m, In m ms /\ e = (m, Some g).
Proof. intros. unfold link. rewrite in_map_iff. split; intros (m & A & B); exists m; auto. Qed.
Lemma last_event_link : forall g ms b, last_event (link g ms) b = if existsb (Nat.eqb b) ms then Some (Some g) else None.
Proof.
  induction ms as [|m t IH]; intros b; simpl; auto. rewrite IH, (Nat.eqb_sym m b).
  destruct (existsb (Nat.eqb b) t); rewrite ?orb_true_r, ?orb_false_r; auto.
Qed.
Lemma existsb_in : forall b l, existsb (Nat.eqb b) l = true <-> In b l.
Proof.
  intros. rewrite existsb_exists. split.
  - intros (x & H & E). apply Nat.eqb_eq in E. now subst.
  - intros H. exists b. split; auto. apply Nat.eqb_refl.
Qed.
Lemma existsb_not_in : forall b l, existsb (Nat.eqb b) l = false <-> ~ In b l.
Proof. intros. rewrite <- existsb_in. destruct (existsb (Nat.eqb b) l); split; congruence. Qed.

(** * Lookup by identifier *)
Definition uid_of (sha : mat3 -> nat) (h : heap) (a : nat) : option nat :=
  option_map (obj_uid sha) (get h a).
Lemma uid_fit : forall sha h a, uid_of sha h a = option_map (uid sha) (fit_of h a).
Proof. intros. unfold uid_of, fit_of. destruct (get h a); reflexivity. Qed.
Lemma first_with_some : forall sha h os u x, first_with sha h os u = Some x ->
  In x os /\ uid_of sha h x = Some u.
Proof.
  intros sha h os u x H. apply find_some in H. destruct H as [I E]. split; auto.
  unfold uid_of. destruct (get h x); [|discriminate]. apply Nat.eqb_eq in E. simpl. now rewrite E.
Qed.
Lemma first_with_none : forall sha h os u, first_with sha h os u = None <->
  forall x, In x os -> uid_of sha h x <> Some u.
Proof.
  intros sha h os u. unfold first_with. split.
  - intros H x I E. apply (find_none _ _ H) in I. unfold uid_of in E.
    destruct (get h x); [|discriminate]. simpl in E. apply Nat.eqb_neq in I. congruence.
  - intros H. destruct (find _ os) as [x|] eqn:F; auto. exfalso.
    apply (first_with_some sha h) in F. destruct F. eapply H; eauto.
Qed.
Lemma first_with_ext : forall sha h h' os u, (forall a, In a os -> fit_of h' a = fit_of h a) ->
  first_with sha h' os u = first_with sha h os u.
Proof.
  intros sha h h' os u E. unfold first_with. induction os as [|a t IH]; simpl; auto.
  rewrite IH by (intros; apply E; now right).
  assert (Ea : fit_of h' a = fit_of h a) by (apply E; now left). unfold fit_of in Ea.
  destruct (get h' a), (get h a); simpl in Ea; try discriminate; auto.
  unfold obj_uid. now replace (o_fit o) with (o_fit o0) by congruence.
Qed.
Lemma first_with_app : forall sha h os os' u, first_with sha h (os ++ os') u =
  match first_with sha h os u with Some x => Some x | None => first_with sha h os' u end.
Proof.
  intros. unfold first_with. induction os as [|a t IH]; simpl; auto. now destruct (match get h a with Some o => _ | None => _ end).
Qed.
Lemma find_uid_ok : forall sha h os gr u x, find_uid sha h os gr u = Ok x <->
  first_with sha h os u = Some x /\ ~ In x gr.
Proof.
  intros. unfold find_uid. destruct (first_with sha h os u) as [y|]; [|split; [discriminate | intros [H _]; discriminate]].
  destruct (existsb (Nat.eqb y) gr) eqn:E.
  - apply existsb_in in E. split; [discriminate|]. intros [H N]. injection H as ->. tauto.
  - apply existsb_not_in in E. split; [intros H; injection H as ->; auto | intros [H _]; congruence].
Qed.
Lemma find_all_ok : forall sha h os gr us vals, find_all sha h os gr us = Ok vals <->
  Forall2 (fun u x => first_with sha h os u = Some x /\ ~ In x gr) us vals.
Proof.
  induction us as [|u us IH]; intros vals; simpl.
  - split; intros H; [injection H as <-; auto | inversion H; auto].
  - destruct (find_uid sha h os gr u) as [x|e|] eqn:E; simpl.
    + apply find_uid_ok in E. destruct (find_all sha h os gr us) as [xs|e|]; simpl.
      * split; intros H.
        -- injection H as <-. constructor; auto. now apply IH.
        -- inversion H as [|? y ? l [A B] F]; subst. apply IH in F. injection F as ->. do 2 f_equal. destruct E; congruence.
      * split; [discriminate|]. intros H. inversion H as [|? ? ? l ? F]; subst. apply IH in F. discriminate.
      * split; [discriminate|]. intros H. inversion H as [|? ? ? l ? F]; subst. apply IH in F. discriminate.
    + split; [discriminate|]. intros H. inversion H as [|? ? ? ? A F]; subst. apply find_uid_ok in A. congruence.
    + split; [discriminate|]. intros H. inversion H as [|? ? ? ? A F]; subst. apply find_uid_ok in A. congruence.
Qed.
Lemma find_all_raise : forall sha h os gr us e, find_all sha h os gr us = Raise e ->
  exists us1 u us2, us = us1 ++ u :: us2 /\ find_uid sha h os gr u = Raise e.
Proof.
  induction us as [|u us IH]; intros e H; simpl in H; [discriminate|].
  destruct (find_uid sha h os gr u) as [x|e'|] eqn:E; simpl in H; try discriminate.
  - destruct (find_all sha h os gr us) as [xs|e'|]; simpl in H; try discriminate.
    injection H as ->. destruct (IH _ eq_refl) as (us1 & u' & us2 & -> & E'). exists (u :: us1), u', us2. auto.
  - injection H as ->. exists [], u, us. auto.
Qed.
Lemma find_all_app_raise : forall sha h os gr us1 u us2 vals e,
  find_all sha h os gr us1 = Ok vals -> find_uid sha h os gr u = Raise e ->
  find_all sha h os gr (us1 ++ u :: us2) = Raise e.
Proof.
  induction us1 as [|v us1 IH]; intros u us2 vals e H E; simpl in *.
  - now rewrite E.
  - destruct (find_uid sha h os gr v) as [x|e'|]; simpl in *; try discriminate.
    destruct (find_all sha h os gr us1) as [xs|e'|]; simpl in *; try discriminate.
    rewrite (IH u us2 xs e); auto.
Qed.
Lemma find_all_finite : forall sha h os gr us, find_all sha h os gr us <> NonFinite.
Proof.
  induction us as [|u us IH]; simpl; [discriminate|].
  unfold find_uid. destruct (first_with sha h os u) as [x|]; simpl; [|discriminate].
  destruct (existsb (Nat.eqb x) gr); simpl; [discriminate|].
  destruct (find_all sha h os gr us); simpl; try discriminate. tauto.
Qed.

(** * Building groups *)
Lemma all_live_lt : forall h os a, all_live h os -> In a os -> a < length h.
Proof. intros h os a H I. unfold all_live in H. rewrite Forall_forall in H. now apply live_lt, H. Qed.
Lemma live_app : forall h cs a, is_live h a -> is_live (h ++ cs) a.
Proof. intros h cs a L. pose proof (live_lt _ _ L). destruct L as [o G]. exists o. now rewrite get_app_l. Qed.
Lemma fit_app : forall h cs a, a < length h -> fit_of (h ++ cs) a = fit_of h a.
Proof. intros. unfold fit_of. now rewrite get_app_l. Qed.
Lemma members_app_l : forall h cs a, a < length h -> members_of (h ++ cs) a = members_of h a.
Proof. intros. unfold members_of. now rewrite get_app_l. Qed.
Lemma get_new : forall h c, get (h ++ [c]) (length h) = match c with Live o => Some o | _ => None end.
Proof. intros. unfold get. rewrite nth_error_app2, Nat.sub_diag by lia. reflexivity. Qed.
Lemma Forall2_left : forall A B (P : A -> B -> Prop) l m a, Forall2 P l m -> In a l -> exists b, In b m /\ P a b.
Proof.
  intros A B P l m a H. induction H as [|x y l m Hxy H IH]; simpl; [tauto|].
  intros [<-|I]; [exists y; auto|]. destruct (IH I) as (b & ? & ?). exists b; auto.
Qed.
Lemma Forall2_right : forall A B (P : A -> B -> Prop) l m b, Forall2 P l m -> In b m -> exists a, In a l /\ P a b.
Proof.
  intros A B P l m b H. induction H as [|x y l m Hxy H IH]; simpl; [tauto|].
  intros [<-|I]; [exists x; auto|]. destruct (IH I) as (a & ? & ?). exists a; auto.
Qed.

Lemma Forall2_impl_in : forall A B (P Q : A -> B -> Prop) l m,
  (forall a b, In a l -> In b m -> P a b -> Q a b) -> Forall2 P l m -> Forall2 Q l m.
Proof.
  intros A B P Q l m K H. induction H as [|x y l m Hxy H IH]; constructor.
  - apply K; simpl; auto.
  - apply IH. intros; apply K; simpl; auto.
Qed.

Section Groups.
Variables (svd : svd_fn) (sha : mat3 -> nat) (same : bool) (w : option vec3).

Lemma group_empty : forall h, GroupedOrientation svd same w h [] = (h, Raise ValueError).
Proof. reflexivity. Qed.
Lemma group_ok : forall h args h' g, all_live h args ->
  GroupedOrientation svd same w h args = (h', Ok g) ->
  args <> [] /\ no_group h args /\ g = length h /\
  exists os f, Forall2 (fun a o => get h a = Some o) args os /\ group_fit svd same w os = Ok f /\
    h' = apply h (link g args) ++ [Live (mkObj f (Some args) None false)].
Proof.
  intros h args h' g HL H. destruct args as [|a t]; [discriminate|].
  assert (NE : a :: t <> []) by discriminate. set (args := a :: t) in *. clearbody args.
  destruct (group_result svd same w h args HL NE) as (os & F & E). rewrite E in H.
  destruct (has_group h args) eqn:G; [discriminate|]. apply has_group_false in G.
  destruct (group_fit svd same w os) as [f|e|] eqn:GF; try discriminate.
  rewrite before_group_all in H by auto. injection H as <- <-.
  split; auto. split; auto. split; auto. exists os, f. auto.
Qed.

(** What one request list resolves to *)
Definition resolves (h : heap) (os gr : list nat) (us ms : list nat) : Prop :=
  Forall2 (fun u m => first_with sha h os u = Some m /\ ~ In m gr /\ members_of h m = None) us ms.
Definition new_cell (h : heap) (ms : list nat) (c : cell) : Prop :=
  exists os f, Forall2 (fun a o => fit_of h a = Some (o_fit o)) ms os /\ group_fit svd same w os = Ok f /\
    c = Live (mkObj f (Some ms) None false).
Fixpoint group_events (g : nat) (gms : list (list nat)) : list event :=
  match gms with [] => [] | ms :: t => link g ms ++ group_events (S g) t end.

Lemma group_events_in : forall gms g e, In e (group_events g gms) <->
  exists i ms m, nth_error gms i = Some ms /\ In m ms /\ e = (m, Some (g + i)).
Proof.
  induction gms as [|ms t IH]; intros g e; simpl.
  - split; [tauto|]. intros ([|i] & ms & m & H & _); discriminate.
  - rewrite in_app_iff, in_link, IH. split.
    + intros [(m & I & ->)|(i & ms' & m & N & I & ->)].
      * exists 0, ms, m. rewrite Nat.add_0_r. auto.
      * exists (S i), ms', m. simpl. replace (g + S i) with (S g + i) by lia. auto.
    + intros ([|i] & ms' & m & N & I & ->); simpl in N.
      * injection N as <-. left. exists m. rewrite Nat.add_0_r. auto.
      * right. exists i, ms', m. replace (g + S i) with (S g + i) by lia. auto.
Qed.

Lemma make_groups_app : forall gs1 gs2 h os gr,
  make_groups svd sha same w h os gr (gs1 ++ gs2) =
  match make_groups svd sha same w h os gr gs1 with
  | (h1, l1, Ok _) => make_groups svd sha same w h1 l1 gr gs2
  | r => r
  end.
Proof.
  induction gs1 as [|us gs1 IH]; intros gs2 h os gr; simpl; auto.
  destruct (find_all sha h os gr us) as [vals|e|]; auto.
  destruct (GroupedOrientation svd same w h vals) as [h1 [g|e|]]; auto.
Qed.

Lemma make_groups_ok : forall groups h os gr h' l, all_live h os ->
  make_groups svd sha same w h os gr groups = (h', l, Ok tt) ->
  exists gms cs, l = os ++ seq (length h) (length groups) /\
    Forall2 (resolves h os gr) groups gms /\ Forall2 (new_cell h) gms cs /\ Forall (fun ms => ms <> []) gms /\
    h' = apply h (group_events (length h) gms) ++ cs.
Proof.
  induction groups as [|us groups IH]; intros h os gr h' l HL H; simpl in H.
  - injection H as <- <-. exists [], []. simpl. rewrite !app_nil_r. repeat split; auto.
  - destruct (find_all sha h os gr us) as [vals|e|] eqn:FA; try discriminate.
    apply find_all_ok in FA.
    assert (HV : all_live h vals).
    { apply Forall_forall. intros v I. destruct (Forall2_right _ _ _ _ _ _ FA I) as (u & _ & E & _).
      apply first_with_some in E. unfold all_live in HL. rewrite Forall_forall in HL. now apply HL. }
    destruct (GroupedOrientation svd same w h vals) as [h1 [g|e|]] eqn:GO; try discriminate.
    destruct (group_ok _ _ _ _ HV GO) as (NE & NG & -> & obs & f & F2 & GF & ->).
    set (cell := Live (mkObj f (Some vals) None false)) in *.
    set (h0 := apply h (link (length h) vals)) in *.
    assert (L0 : length h0 = length h) by apply apply_length.
    assert (HL1 : all_live (h0 ++ [cell]) (os ++ [length h])).
    { apply Forall_app. split.
      - eapply Forall_impl; [|exact HL]. intros a La. apply live_app. now apply live_apply.
      - constructor; [|constructor]. eexists. rewrite <- L0, get_new. reflexivity. }
    destruct (IH _ _ _ _ _ HL1 H) as (gms & cs & -> & R & N & NN & ->).
    assert (LT : forall a, In a os -> a < length h) by (intros a Ia; exact (all_live_lt h os a HL Ia)).
    assert (FE : forall a, In a os -> fit_of (h0 ++ [cell]) a = fit_of h a).
    { intros a Ia. rewrite fit_app by (rewrite L0; auto). apply fit_apply. }
    assert (ME : forall a, a < length h -> members_of (h0 ++ [cell]) a = members_of h a).
    { intros a Ia. rewrite members_app_l by (rewrite L0; auto). apply members_apply. }
    (* resolution in the extended state is resolution in the old one *)
    assert (RR : forall us' ms', resolves (h0 ++ [cell]) (os ++ [length h]) gr us' ms' -> resolves h os gr us' ms').
    { intros us' ms' Q. induction Q as [|u m us' ms' (A & B & C) Q IHQ]; constructor; auto.
      assert (Im : In m os).
      { destruct (first_with_some _ _ _ _ _ A) as [Im _]. apply in_app_iff in Im.
        destruct Im as [Im|[<-|[]]]; auto. exfalso. unfold members_of in C. rewrite <- L0, get_new in C. discriminate. }
      rewrite first_with_app, (first_with_ext sha h) in A by auto.
      destruct (first_with sha h os u) as [y|] eqn:FW.
      - injection A as ->. repeat split; auto. rewrite <- ME; auto.
      - exfalso. destruct (first_with_some _ _ _ _ _ A) as [[<-|[]] _]. specialize (LT _ Im). lia. }
    assert (R' : Forall2 (resolves h os gr) groups gms) by (eapply Forall2_impl_in; [|exact R]; auto).
    assert (LTM : forall ms m, In ms gms -> In m ms -> m < length h).
    { intros ms m Ims Im. destruct (Forall2_right _ _ _ _ _ _ R' Ims) as (us' & _ & Q).
      destruct (Forall2_right _ _ _ _ _ _ Q Im) as (u & _ & A & _). apply first_with_some in A. now apply LT. }
    exists (vals :: gms), (cell :: cs). repeat split.
    + rewrite <- app_assoc, app_length, L0, Nat.add_1_r. reflexivity.
    + constructor; auto. clear -FA NG. unfold no_group in NG. rewrite Forall_forall in NG.
      induction FA as [|u m us ms [A B] FA IHF]; constructor.
      * repeat split; auto. apply NG. now left.
      * apply IHF. intros; apply NG. now right.
    + constructor.
      * exists obs, f. repeat split; auto. clear -F2. induction F2 as [|a o l m G F2 IHF]; constructor; auto.
        unfold fit_of. now rewrite G.
      * eapply Forall2_impl_in; [|exact N]. intros ms c Ims _ (ob & f' & A & B & C). exists ob, f'. repeat split; auto.
        clear -A FE LTM Ims L0 LT. assert (K : forall m, In m ms -> m < length h) by (intros; eapply LTM; eauto).
        clear Ims. induction A as [|a o l m G A IHA]; constructor.
        -- rewrite fit_app in G by (rewrite L0; apply K; now left). unfold h0 in G. now rewrite fit_apply in G.
        -- apply IHA. intros; apply K. now right.
    + constructor; auto.
    + assert (LL : length (h0 ++ [cell]) = S (length h)) by (rewrite app_length, L0; simpl; lia).
      rewrite LL, apply_app_cell.
      * simpl. rewrite <- app_assoc, apply_app. reflexivity.
      * rewrite L0. intros e He. apply group_events_in in He.
        destruct He as (i & ms & m & Ni & Im & ->). simpl. eapply LTM; eauto. eapply nth_error_In; eauto.
Qed.
End Groups.
