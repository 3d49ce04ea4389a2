(** C208: error bands kept and redrawn. *)
From Coq Require Import Reals List Arith Lra Lia String.
From Verif Require Import RVec LNum MConics MHyper SpecConics PHyper MBand SpecBand.
Import ListNotations.
Open Scope R_scope.

(** ** the sequence of calls *)
Definition plots (l : list call) : nat := List.length (filter (fun c => match c with Plot => true | _ => false end) l).
Definition announced (c : call) : option bands := match c with Update (inl b) => Some b | _ => None end.
Definition shown (o : option bands) : points :=
  match o with None => [(0, 0)] | Some (_, bot, top) => bot ++ top end.
Definition given (args : option (bands + exn)) : option bands := match args with Some (inl b) => Some b | _ => None end.
Definition begins_with_plot (l : list call) : Prop := match l with [] | Plot :: _ => True | _ => False end.

Lemma run_app : forall d a b, run d (a ++ b) = run (run d a) b.
Proof. intros. apply fold_left_app. Qed.
Lemma latest_app : forall A B (f : A -> option B) i a b, latest f i (a ++ b) = latest f (latest f i a) b.
Proof. intros. apply fold_left_app. Qed.
Lemma plots_app : forall a b, plots (a ++ b) = (plots a + plots b)%nat.
Proof. intros. unfold plots. now rewrite filter_app, app_length. Qed.
Lemma set_nth_length : forall A k (x : A) l, List.length (set_nth k x l) = List.length l.
Proof. intros A k x l. revert k. induction l as [|a l IH]; intros [|k]; simpl; auto. Qed.
Lemma set_nth_same : forall A k (x : A) l, (k < List.length l)%nat -> nth_error (set_nth k x l) k = Some x.
Proof. intros A k x l. revert k. induction l as [|a l IH]; intros [|k] H; simpl in *; try lia; auto. apply IH. lia. Qed.
Lemma set_nth_other : forall A k j (x : A) l, j <> k -> nth_error (set_nth k x l) j = nth_error l j.
Proof.
  intros A k j x l. revert k j. induction l as [|a l IH]; intros [|k] [|j] H; simpl in *; try congruence; auto.
Qed.

Definition sound (d : drawn) : Prop :=
  d_poly d = match List.length (d_patches d) with O => None | S k => Some k end.
Lemma step_facts : forall d c, sound d ->
  sound (fst (step d c)) /\
  d_data (fst (step d c)) = match announced c with Some b => Some b | None => d_data d end /\
  List.length (d_patches (fst (step d c))) = (List.length (d_patches d) + plots [c])%nat.
Proof.
  intros [dt pa po li] c S. unfold sound in *. cbn [d_poly d_patches d_data] in *.
  destruct c as [| |[b|e]]; unfold step, set_plot_data, announced, plots; cbn [d_data d_patches d_poly d_lines].
  - destruct dt as [b|]; cbn [fst d_data d_patches d_poly filter List.length].
    + rewrite set_nth_length, app_length. cbn [List.length]. rewrite Nat.add_1_r. auto.
    + rewrite app_length. cbn [List.length]. rewrite Nat.add_1_r. auto.
  - destruct dt as [[[n b] t]|]; cbn [fst d_data d_patches d_poly filter List.length]; rewrite Nat.add_0_r; auto.
  - rewrite S. destruct (List.length pa) as [|k] eqn:E; cbn [fst d_data d_patches d_poly filter List.length]; rewrite ?set_nth_length, ?Nat.add_0_r, E; auto.
  - cbn [fst d_data d_patches d_poly filter List.length]; rewrite Nat.add_0_r; auto.
Qed.
Lemma run_facts : forall l d, sound d ->
  sound (run d l) /\ d_data (run d l) = latest announced (d_data d) l /\
  List.length (d_patches (run d l)) = (List.length (d_patches d) + plots l)%nat.
Proof.
  intros l. induction l as [|c l IH] using rev_ind; intros d S.
  - unfold plots, latest, run. simpl. rewrite Nat.add_0_r. auto.
  - rewrite run_app, latest_app, plots_app. destruct (IH d S) as (S1 & D1 & L1).
    destruct (step_facts (run d l) c S1) as (S2 & D2 & L2). cbn [run fold_left latest].
    split; [exact S2|]. split; [rewrite D2, D1; reflexivity|]. rewrite L2, L1. lia.
Qed.

(** a later call leaves every polygon but the last alone *)
Lemma step_keeps : forall d c j, sound d -> (S j < List.length (d_patches d))%nat \/ (S j <= List.length (d_patches d))%nat /\ c = Plot ->
  nth_error (d_patches (fst (step d c))) j = nth_error (d_patches d) j.
Proof.
  intros [dt pa po li] c j S H. unfold sound in S. cbn [d_poly d_patches d_data] in *.
  destruct c as [| |[b|e]]; unfold step, set_plot_data; cbn [d_data d_patches d_poly d_lines].
  - destruct dt as [b|]; cbn [fst d_patches]; [rewrite set_nth_other by lia|]; apply nth_error_app1; lia.
  - destruct dt as [[[n b] t]|]; reflexivity.
  - rewrite S. destruct H as [H|[_ H]]; [|discriminate]. destruct (List.length pa) as [|k]; [lia|].
    cbn [fst d_patches]. apply set_nth_other. lia.
  - reflexivity.
Qed.
Lemma run_keeps : forall l d j, sound d -> (S j < List.length (d_patches d))%nat \/ (S j <= List.length (d_patches d))%nat /\ begins_with_plot l ->
  nth_error (d_patches (run d l)) j = nth_error (d_patches d) j.
Proof.
  induction l as [|c l IH]; intros d j S H; [reflexivity|].
  cbn [run fold_left]. destruct (step_facts d c S) as (S1 & _ & L1). change (fold_left _ l ?x) with (run x l).
  assert (K : (Datatypes.S j < List.length (d_patches d))%nat \/ (Datatypes.S j <= List.length (d_patches d))%nat /\ c = Plot).
  { destruct H as [H|[H B]]; [now left|right]. split; auto. destruct c; simpl in B; tauto. }
  rewrite IH; auto.
  - now apply step_keeps.
  - left. rewrite L1. destruct K as [K|[K ->]]; [lia|]. change (plots [Plot]) with 1%nat. lia.
Qed.
(** the last polygon follows the data *)
Lemma run_follows : forall l d k, sound d -> plots l = O -> List.length (d_patches d) = S k ->
  nth_error (d_patches d) k = Some (shown (d_data d)) ->
  nth_error (d_patches (run d l)) k = Some (shown (latest announced (d_data d) l)).
Proof.
  intros l. induction l as [|c l IH] using rev_ind; intros d k S P L H; [exact H|].
  rewrite plots_app in P. rewrite run_app, latest_app. destruct (run_facts l d S) as (S1 & D1 & L1).
  specialize (IH d k S ltac:(lia) L H). rewrite <- D1 in *. set (e := run d l) in *.
  assert (Le : List.length (d_patches e) = Datatypes.S k) by lia.
  clearbody e. destruct e as [dt pa po li]. unfold sound in S1. cbn [d_poly d_patches d_data run fold_left latest] in *.
  destruct c as [| |[b|e]]; unfold step, set_plot_data, announced; cbn [d_data d_patches d_poly d_lines].
  - exfalso. change (plots [Plot]) with 1%nat in P. lia.
  - destruct dt as [[[n b] t]|]; exact IH.
  - rewrite S1, Le. cbn [fst d_patches]. rewrite set_nth_same by lia. destruct b as [[n bo] t]. reflexivity.
  - exact IH.
Qed.

(** the polygon of the k-th [plot] shows the data last stored before the next [plot] *)
Theorem C208_patches : forall args d0 pre mid post, HyperbolicErrors args = Ok d0 ->
  plots mid = O -> begins_with_plot post ->
  let d := run d0 (pre ++ Plot :: mid ++ post) in
  List.length (d_patches d) = plots (pre ++ Plot :: mid ++ post) /\
  nth_error (d_patches d) (plots pre) = Some (shown (latest announced (given args) (pre ++ mid))).
Proof.
  intros args d0 pre mid post A M B d.
  assert (S0 : sound d0 /\ d_patches d0 = [] /\ d_data d0 = given args).
  { unfold HyperbolicErrors in A. destruct args as [[b|e]|]; inversion A; subst; repeat split; reflexivity. }
  destruct S0 as (S0 & E0 & G0). rewrite <- G0. split.
  - unfold d. destruct (run_facts (pre ++ Plot :: mid ++ post) d0 S0) as (_ & _ & L). rewrite L, E0. reflexivity.
  - unfold d. rewrite run_app. destruct (run_facts pre d0 S0) as (S1 & D1 & L1). rewrite E0 in L1. cbn [List.length plus] in L1.
    set (e := run d0 pre) in *. change (Plot :: mid ++ post) with ([Plot] ++ mid ++ post). rewrite !run_app.
    destruct (step_facts e Plot S1) as (S2 & D2 & L2). change (run e [Plot]) with (fst (step e Plot)).
    set (e2 := fst (step e Plot)) in *.
    assert (L2' : List.length (d_patches e2) = S (plots pre)) by (rewrite L2, L1; change (plots [Plot]) with 1%nat; lia).
    destruct (run_facts mid e2 S2) as (S3 & D3 & L3).
    rewrite run_keeps; auto; [|right; split; auto; lia].
    rewrite latest_app, <- D1. cbn [announced] in D2. rewrite <- D2. apply run_follows; auto.
    unfold e2, step, set_plot_data. cbn [d_data d_patches d_poly d_lines]. rewrite <- L1.
    destruct (d_data e) as [[[n bo] t]|] eqn:De; cbn [fst d_patches d_data].
    + rewrite set_nth_same; [reflexivity|]. rewrite app_length. cbn [List.length]. lia.
    + rewrite nth_error_app2, Nat.sub_diag by lia. reflexivity.
Qed.
(** making one fails exactly when computing the band does *)
Theorem C208_made : forall args, (forall e, HyperbolicErrors args = Raise e <-> args = Some (inr e)) /\ HyperbolicErrors args <> NonFinite.
Proof.
  intros [[b|e]|]; split; try discriminate; intros e'; split; intros H; try discriminate H; try (injection H as ->; reflexivity).
Qed.
(** which calls raise; an update before any plot raises and yet is kept *)
Theorem C208_raises : forall args d0 l, HyperbolicErrors args = Ok d0 ->
  let d := run d0 l in
  snd (step d Plot) = None /\
  (snd (step d PlotNominal) = Some TypeError <-> latest announced (given args) l = None) /\
  (forall n bo t, latest announced (given args) l = Some (n, bo, t) ->
     snd (step d PlotNominal) = None /\ d_lines (fst (step d PlotNominal)) = d_lines d ++ [n]) /\
  (forall b, (snd (step d (Update (inl b))) = Some AttributeError <-> plots l = O) /\
     (plots l <> O -> snd (step d (Update (inl b))) = None) /\
     d_data (fst (step d (Update (inl b)))) = Some b) /\
  (forall e, step d (Update (inr e)) = (d, Some e)).
Proof.
  intros args d0 l A d.
  assert (S0 : sound d0 /\ d_patches d0 = [] /\ d_data d0 = given args).
  { unfold HyperbolicErrors in A. destruct args as [[b|e]|]; inversion A; subst; repeat split; reflexivity. }
  destruct S0 as (S0 & E0 & G0). rewrite <- G0. destruct (run_facts l d0 S0) as (S1 & D1 & L1). fold d in S1, D1, L1. rewrite E0 in L1. cbn [List.length plus] in L1.
  rewrite <- D1, <- L1. clearbody d. clear D1 L1. unfold sound in S1. destruct d as [dt pa po li]. cbn [d_poly d_patches d_data d_lines] in *.
  split; [unfold step, set_plot_data; cbn [d_data d_patches d_poly d_lines]; now destruct dt|].
  split. { unfold step; cbn [d_data]. destruct dt as [[[n b] t]|]; cbn [snd]; split; congruence. }
  split. { intros n bo t ->. split; reflexivity. }
  split; [|reflexivity].
  intros b. unfold step, set_plot_data. cbn [d_data d_patches d_poly d_lines]. rewrite S1. destruct (List.length pa); cbn [snd fst d_data].
  - split; [tauto|]. split; [congruence|reflexivity].
  - split; [split; discriminate|]. auto.
Qed.
Theorem C208_colours : forall k,
  k_edgecolor (plot_colours k) = Some (first_of [k_edgecolor k; k_ec k; k_facecolor k; k_fc k; k_color k] "black"%string) /\
  k_ec (plot_colours k) = None /\ k_color (plot_colours k) = k_color k /\ k_fc (plot_colours k) = k_fc k /\ k_facecolor (plot_colours k) = k_facecolor k.
Proof. intros [c f fc e ec]. unfold plot_colours; cbn. split; [destruct ec, e, fc, f, c; reflexivity|repeat split]. Qed.

(** ** the outline *)
Lemma swept_last : forall l a b, swept (l ++ [a; b]) = swept (l ++ [a]) + cross2 a b.
Proof.
  induction l as [|x l IH]; intros a b; [cbn; ring|].
  destruct l as [|y l]; [cbn; ring|]. specialize (IH a b). cbn [app] in *. change (swept (x :: y :: l ++ [a; b])) with (cross2 x y + swept (y :: l ++ [a; b])).
  change (swept (x :: y :: l ++ [a])) with (cross2 x y + swept (y :: l ++ [a])). rewrite IH. ring.
Qed.
Section band_area.
Variables (m : R * R) (c s : R) (y : R -> R).
Hypothesis (N : c * c + s * s = 1).
Let B x := plus2 m (x * c + y x * s, x * s - y x * c).
Let T x := plus2 m (x * c - y x * s, x * s + y x * c).
Lemma band_swept : forall xs x, swept (map B (x :: xs) ++ rev (map T (x :: xs))) =
  4 * trapezoids y (x :: xs) + 2 * (x * y x) + cross2 m (T x) - cross2 m (B x).
Proof.
  induction xs as [|x' xs IH]; intros x.
  - unfold swept, trapezoids, cross2, B, T, plus2. cbn [map rev app fst snd].
    replace (2 * (x * y x)) with (2 * (x * y x) * (c * c + s * s)) by (rewrite N; ring). ring.
  - specialize (IH x'). cbn [map rev] in IH |- *. rewrite <- app_assoc. cbn [app] in IH |- *.
    change (swept (B x :: B x' :: ?l)) with (cross2 (B x) (B x') + swept (B x' :: l)).
    rewrite app_assoc.
    pose proof (swept_last (B x' :: map B xs ++ rev (map T xs)) (T x') (T x)) as E. cbn [app] in E. rewrite E.
    rewrite <- app_assoc, IH. cbn [trapezoids]. set (t := trapezoids y (x' :: xs)).
    change (match xs with [] => 0 | y0 :: _ => _ end) with t.
    replace (4 * ((x' - x) * (y x + y x') / 2 + t)) with (2 * ((x' - x) * (y x + y x')) * (c * c + s * s) + 4 * t) by (rewrite N; field).
    replace (2 * (x * y x)) with (2 * (x * y x) * (c * c + s * s)) by (rewrite N; ring).
    replace (2 * (x' * y x')) with (2 * (x' * y x') * (c * c + s * s)) by (rewrite N; ring).
    unfold cross2, B, T, plus2. cbn [fst snd]. ring.
Qed.
Lemma band_enclosed : forall xs, enclosed (map B xs ++ rev (map T xs)) = trapezoids (fun x => 2 * y x) xs.
Proof.
  intros [|x xs]; [reflexivity|].
  assert (Q : forall l, trapezoids (fun x => 2 * y x) l = 2 * trapezoids y l).
  { induction l as [|a [|b l] IH]; cbn [trapezoids] in *; [ring|ring|]. rewrite IH. field. }
  rewrite Q. unfold enclosed. cbn [map rev app]. rewrite app_assoc, <- app_assoc. cbn [app].
  pose proof (swept_last (map B (x :: xs) ++ rev (map T xs)) (T x) (B x)) as E. cbn [map app] in E. rewrite E.
  pose proof (band_swept xs x) as P. cbn [map rev app] in P. rewrite app_assoc in P. rewrite P.
  replace (2 * (x * y x)) with (2 * (x * y x) * (c * c + s * s)) by (rewrite N; ring).
  unfold cross2, B, T, plus2. cbn [fst snd]. field.
Qed.
End band_area.
(** the polygon that is drawn runs counter-clockwise along the band, once there and
    once back, and covers the width 2 y of the band under the trapezoid rule *)
Theorem C208_outline : forall inv h T a0 a1 xs means reverse, numpy_inv inv ->
  vx h <> 0 -> vy h <> 0 -> vz h <> 0 ->
  let q0 := recip h (in_frame T a0) in let q1 := recip h (in_frame T a1) in
  q0 <> 0 -> q1 <> 0 ->
  exists b (y : R -> R), hyperbolic_errors inv (list_of h) xs T (Some [list_of a0; list_of a1]) means reverse = Ok b /\
    (forall x, 0 < y x /\ y x * y x * Rabs q1 - x * x * Rabs q0 = 1) /\
    List.length (outline b) = (2 * List.length xs)%nat /\
    enclosed (outline b) = trapezoids (fun x => 2 * y x) xs /\
    (increasing xs -> (2 <= List.length xs)%nat -> 0 < enclosed (outline b)).
Proof.
  intros inv h T a0 a1 xs means reverse HI H0 H1 H2 q0 q1 Q0 Q1.
  destruct (C74_band inv h T a0 a1 xs means reverse HI H0 H1 H2 Q0 Q1) as (c & s & y & N & Y & E).
  eexists. exists y. split; [exact E|]. split; [exact Y|]. cbn [outline]. 
  split; [rewrite app_length, rev_length, !map_length; lia|].
  assert (A := band_enclosed (mean_of means) c s y N xs). cbn beta in A. split; [exact A|].
  intros I L. rewrite A. clear A E.
  assert (P : forall t x, increasing (x :: t) -> 0 <= trapezoids (fun x => 2 * y x) (x :: t)).
  { induction t as [|x' t IH]; intros x J; cbn [trapezoids]; [lra|]. destruct J as [J1 J2]. specialize (IH x' J2). cbn [trapezoids] in IH.
    destruct (Y x) as [Yx _], (Y x') as [Yx' _]. pose proof (Rmult_lt_0_compat (x' - x) (2 * y x + 2 * y x') ltac:(lra) ltac:(lra)). lra. }
  destruct xs as [|x [|x' t]]; cbn [List.length] in L; try lia. destruct I as [J1 J2]. specialize (P t x' J2). cbn [trapezoids] in *.
  destruct (Y x) as [Yx _], (Y x') as [Yx' _]. pose proof (Rmult_lt_0_compat (x' - x) (2 * y x + 2 * y x') ltac:(lra) ltac:(lra)). lra.
Qed.

(** an object plotted, updated, plotted again and updated again *)
Example C208_ex : exists d0 b1 b2, HyperbolicErrors None = Ok d0 /\ b1 <> b2 /\
  d_patches (run d0 [Plot; Update (inl b1); Plot; PlotNominal; Update (inl b2)]) = [shown (Some b1); shown (Some b2)] /\
  increasing [-1; 0; 2] /\ recip (V3 9 4 1) (in_frame None (V3 1 0 0)) <> 0 /\ recip (V3 9 4 1) (in_frame None (V3 0 0 1)) <> 0.
Proof.
  exists (Drawn None [] None []), ([(0, 0)], [(0, - 1)], [(0, 1)]), ([(0, 0)], [(0, - 2)], [(0, 2)]).
  split; [reflexivity|]. split; [intros E; injection E; lra|]. split; [reflexivity|].
  split; [cbn; lra|]. apply C74_ex.
Qed.

Print Assumptions C208_patches.
Print Assumptions C208_made.
Print Assumptions C208_raises.
Print Assumptions C208_colours.
Print Assumptions C208_outline.
