(** Properties C186-C189: what the section view keeps and says. *)
From Coq Require Import Reals List Arith Bool Lra Lia Psatz Permutation Sorted.
From Verif Require Import RVec Trig MPca MAxes MFront SpecFront SpecNet SpecSide PFront3 MSide PSide.
Import ListNotations.
Open Scope R_scope.

(** * C186: the elements of the planes *)
Lemma insert_perm : forall d e l, Permutation (insert_elem d e l) (e :: l).
Proof.
  intros d e l. induction l as [|x t IH]; cbn; [auto|]. destruct (Rlt_dec _ _); auto.
  rewrite IH. apply perm_swap.
Qed.
Lemma sort_perm : forall d l, Permutation (sort_elems d l) l.
Proof. intros d l. induction l as [|x t IH]; cbn; auto. rewrite insert_perm. auto. Qed.
Definition nearer (d : nat -> R) (a b : elem) : Prop := d (el_plane a) <= d (el_plane b).
Lemma insert_sorted : forall d e l, StronglySorted (nearer d) l -> StronglySorted (nearer d) (insert_elem d e l).
Proof.
  intros d e l H. induction H as [|x t S IH F]; cbn.
  - repeat constructor.
  - destruct (Rlt_dec (d (el_plane x)) (d (el_plane e))) as [L|L].
    + constructor; auto. rewrite Forall_forall in F |- *. intros y I.
      apply (Permutation_in y (insert_perm d e t)) in I. destruct I as [<-|I]; [unfold nearer; lra|auto].
    + constructor; [constructor; auto|]. constructor; [unfold nearer; lra|].
      rewrite Forall_forall in F |- *. intros y I. specialize (F y I). unfold nearer in *. lra.
Qed.
Lemma sort_sorted : forall d l, StronglySorted (nearer d) (sort_elems d l).
Proof. intros d l. induction l as [|x t IH]; cbn; [constructor | now apply insert_sorted]. Qed.
Lemma join_planes : forall g m ps es, (length es <= length ps)%nat -> map el_plane (join g m ps es) = ps.
Proof.
  intros g m ps. induction ps as [|p ps IH]; intros es L; destruct es as [|e es]; cbn in *; try lia; auto.
  - f_equal. apply IH. cbn. lia.
  - f_equal. apply IH. lia.
Qed.
Lemma join_length : forall g m ps es, (length es <= length ps)%nat -> length (join g m ps es) = length ps.
Proof. intros g m ps es L. rewrite <- (map_length el_plane), join_planes; auto. Qed.
Lemma after_length : forall g n views, (length (elems_after g n views) <= n)%nat.
Proof.
  intros g n views. unfold elems_after. assert (H : (length (@nil elem) <= n)%nat) by (cbn; lia). revert H.
  generalize (@nil elem). induction views as [|v vs IH]; intros es H; cbn; auto. apply IH. unfold update_elems.
  rewrite (Permutation_length (sort_perm _ _)), join_length; rewrite seq_length; auto.
Qed.
Lemma after_last : forall g n views v, elems_after g n (views ++ [v]) = update_elems g n (elems_after g n views) v.
Proof. intros. unfold elems_after. now rewrite fold_left_app. Qed.

(** At every view each plane is drawn once, the farther ones under the nearer ones, with the
    class that the style sheet uses. *)
Theorem C186_order : forall grouped n views v, let els := elems_after grouped n (views ++ [v]) in
  Permutation (map el_plane els) (seq 0 n) /\
  StronglySorted (fun a b => fst v (el_plane a) <= fst v (el_plane b)) els /\
  Forall (fun e => el_in_group e = grouped (el_plane e)) els.
Proof.
  intros g n views v els. unfold els. rewrite after_last. unfold update_elems.
  pose proof (after_length g n views) as L. set (es := elems_after g n views) in *. clearbody es. repeat split.
  - rewrite (Permutation_map el_plane (sort_perm _ _)), join_planes; [auto | now rewrite seq_length].
  - apply sort_sorted.
  - apply (Permutation_Forall (Permutation_sym (sort_perm _ _))).
    rewrite <- (seq_length n 0) in L. revert es L. generalize (seq 0 n). intros ps.
    induction ps as [|p ps IH]; intros es L; destruct es as [|e es]; cbn [join].
    + constructor.
    + cbn in L. lia.
    + constructor; [reflexivity|]. apply IH. cbn. lia.
    + constructor; [reflexivity|]. apply IH. cbn in L |- *. lia.
Qed.
(** At the first view the other class and the mask are those of the plane too. *)
Theorem C186_first : forall grouped n v,
  Forall (fun e => el_grouped e = grouped (el_plane e) /\ el_mask e = snd v (el_plane e)) (elems_after grouped n [v]).
Proof.
  intros g n v. unfold elems_after. cbn. unfold update_elems.
  apply (Permutation_Forall (Permutation_sym (sort_perm _ _))). generalize (seq 0 n). intros ps.
  induction ps as [|p ps IH]; cbn; constructor; auto.
Qed.
(** If every view, including the first, has the planes in the order of the data, they stay
    so, the mask being that of the first view... *)
Lemma insert_head : forall d e l, Forall (fun x => d (el_plane e) <= d (el_plane x)) l -> insert_elem d e l = e :: l.
Proof.
  intros d e l F. destruct l as [|x t]; auto. cbn. inversion F; subst. destruct (Rlt_dec _ _); auto. lra.
Qed.
Lemma sort_id : forall d l, StronglySorted (nearer d) l -> sort_elems d l = l.
Proof. intros d l S. induction S as [|x t S IH F]; auto. change (insert_elem d x (sort_elems d t) = x :: t). rewrite IH. now apply insert_head. Qed.
Lemma join_sorted : forall g m d ps es, (length es <= length ps)%nat -> StronglySorted (fun i j => d i <= d j) ps ->
  StronglySorted (nearer d) (join g m ps es).
Proof.
  intros g m d ps es L S. rewrite <- (join_planes g m ps es L) in S. revert S. generalize (join g m ps es). intros l.
  induction l as [|x t IH]; cbn; intros S; constructor; inversion S; subst; auto.
  rewrite Forall_forall in *. intros y I. apply (in_map el_plane) in I. unfold nearer. auto.
Qed.
Theorem C186_steady : forall grouped n v views, (forall w, In w (v :: views) -> forall i j, (i <= j < n)%nat -> fst w i <= fst w j) ->
  elems_after grouped n (v :: views) = map (fun p => mkElem p (grouped p) (grouped p) (snd v p)) (seq 0 n).
Proof.
  intros g n v views H.
  assert (SS : forall w, In w (v :: views) -> StronglySorted (fun i j => fst w i <= fst w j) (seq 0 n)).
  { intros w I. specialize (H w I). assert (G : forall k m, (k + m <= n)%nat -> StronglySorted (fun i j => fst w i <= fst w j) (seq k m)).
    { intros k m. revert k. induction m as [|m IH]; intros k L; cbn; constructor; [apply IH; lia|].
      rewrite Forall_forall. intros j J. apply in_seq in J. apply H. lia. }
    apply G. lia. }
  induction views as [|w ws IH] using rev_ind.
  - unfold elems_after. cbn [fold_left]. unfold update_elems. rewrite sort_id.
    + generalize (seq 0 n). intros ps. induction ps as [|p ps IHp]; cbn; auto. now f_equal.
    + apply join_sorted; [cbn; lia | apply SS; now left].
  - change (v :: ws ++ [w]) with ((v :: ws) ++ [w]). rewrite after_last, IH.
    + unfold update_elems. rewrite sort_id.
      * generalize (seq 0 n). intros ps. induction ps as [|p ps IHp]; cbn; auto. now f_equal.
      * apply join_sorted; [now rewrite map_length | apply SS; right; apply in_or_app; right; now left].
    + intros w' I. apply H. cbn in I |- *. rewrite in_app_iff. tauto.
    + intros w' I. apply SS. cbn in I |- *. rewrite in_app_iff. tauto.
Qed.
(** ... but otherwise a plane can get the mask and class made for another: here two planes,
    the first in a group, seen twice from the same side, from where the second is farther. *)
Theorem C186_refuted : exists grouped n v e, In e (elems_after grouped n [v; v]) /\
  el_grouped e <> grouped (el_plane e) /\ el_mask e <> snd v (el_plane e).
Proof.
  exists (fun i => Nat.eqb i 0), 2%nat, ((fun i => - INR i), INR), (mkElem 0%nat true false 1).
  assert (A : forall a b, a < b -> exists H, Rlt_dec a b = left H).
  { intros a b L. destruct (Rlt_dec a b) as [H|H]; [now exists H | contradiction]. }
  assert (B : forall a b, ~ a < b -> exists H, Rlt_dec a b = right H).
  { intros a b L. destruct (Rlt_dec a b) as [H|H]; [contradiction | now exists H]. }
  destruct (A (- INR 1) (- INR 0)) as (h & E1); [cbn; lra|]. destruct (B (- INR 0) (- INR 1)) as (k & E2); [cbn; lra|].
  split.
  - unfold elems_after, update_elems, sort_elems. cbn [fold_left seq join fold_right insert_elem el_plane el_in_group el_grouped el_mask fst snd].
    rewrite E1. cbn [fold_left seq join fold_right insert_elem el_plane el_in_group el_grouped el_mask fst snd].
    rewrite E1. right. left. reflexivity.
  - cbn. split; [discriminate | lra].
Qed.
Example C186_ex : forall w, In w [((fun i : nat => INR i), INR); ((fun _ : nat => 3), INR)] -> forall i j, (i <= j < 2)%nat -> fst w i <= fst w j.
Proof. intros w [<-|[<-|[]]] i j L; cbn; [apply le_INR; lia | lra]. Qed.

(** * C187: the azimuth *)
(** The label is the azimuth of the view plus 90 degrees, up to full turns; the direction to
    the right of the screen has that compass direction only when sine and cosine of the
    azimuth agree. *)
Theorem C187_label : forall az, exists fuel0, forall fuel, (fuel0 <= fuel)%nat -> exists d k,
  az_label fuel az = Some d /\ -180 <= d <= 180 /\ d = degrees az + 90 + IZR k * 360 /\
  heading (180 - degrees az) = right_of (view_angle az) /\
  (heading d = right_of (view_angle az) <-> sin az = cos az).
Proof.
  intros az. destruct (C123_fix_angle (view_angle az + PI)) as (f0 & F). exists f0. intros fuel HF.
  destruct (F fuel HF) as (b & k & E & B & Q & _). pose proof PI_RGT_0 as P.
  exists (degrees b), (- k)%Z. unfold az_label. rewrite E. cbn [option_map].
  split; [unfold degrees; f_equal; field; lra|]. unfold view_angle in *. split; [|split; [|split]].
  - destruct B as [B1 B2]. apply degrees_le in B1. apply degrees_le in B2.
    replace (degrees (- PI)) with (-180) in B1 by (unfold degrees; field; lra).
    replace (degrees PI) with 180 in B2 by (unfold degrees; field; lra). lra.
  - replace b with (az - PI / 2 + PI - IZR k * (2 * PI)) by lra. rewrite opp_IZR. unfold degrees. field. lra.
  - unfold heading, right_of. replace (radians (180 - degrees az)) with (PI - az) by (unfold radians, degrees; field; lra).
    rewrite sin_minus, cos_minus, sin_PI, cos_PI, cos_minus, sin_minus, cos_PI2, sin_PI2. f_equal; ring.
  - unfold heading, right_of. rewrite radians_degrees.
    assert (SB : sin b = cos az /\ cos b = - sin az).
    { replace b with (az + PI / 2 + 2 * IZR (- k) * PI) by (rewrite opp_IZR; lra). destruct (Z_le_dec 0 (- k)) as [kz|kz].
      - rewrite <- (Z2Nat.id (- k)) by auto. rewrite <- INR_IZR_INZ, sin_period, cos_period.
        rewrite sin_plus, cos_plus, cos_PI2, sin_PI2. split; ring.
      - assert (N : IZR (- k) = - INR (Z.to_nat k)) by (rewrite INR_IZR_INZ, Z2Nat.id by lia; now rewrite opp_IZR).
        rewrite N. set (m := Z.to_nat k).
        rewrite <- (sin_period (az + PI / 2 + 2 * - INR m * PI) m), <- (cos_period (az + PI / 2 + 2 * - INR m * PI) m).
        replace (az + PI / 2 + 2 * - INR m * PI + 2 * INR m * PI) with (az + PI / 2) by ring.
        rewrite sin_plus, cos_plus, cos_PI2, sin_PI2. split; ring. }
    destruct SB as [-> ->]. rewrite cos_minus, sin_minus, cos_PI2, sin_PI2. split.
    + intros H. injection H. intros. lra.
    + intros ->. f_equal; ring.
Qed.
(** The azimuth set when the stereonet is turned to the centre [lon], [lat] turns the section
    the other way round: what it has to the right is at the angle of 90 degrees plus twice
    the longitude, clockwise, from what the net has there... *)
Theorem C187_net : forall lon lat, let a := view_angle (rotate_azimuth (lon, lat)) in
  let w := turned (- lon, - lat, 0) in
  v_centre w = enu (lon, lat) /\
  dot (right_of a) (v_right w) = cos (radians (90 + 2 * lon)) /\ dot (towards a) (v_right w) = - sin (radians (90 + 2 * lon)).
Proof.
  intros lon lat a w. unfold a, w, view_angle, rotate_azimuth, turned. cbn [fst v_centre v_right].
  rewrite !Ropp_involutive. split; [reflexivity|].
  assert (E : - PI / 180 * lon - PI / 2 = - (PI / 2 + radians lon)) by (unfold radians; field).
  assert (Q : radians (90 + 2 * lon) = PI / 2 + 2 * radians lon) by (unfold radians; field).
  assert (T : radians (90 - - lon) = PI / 2 + radians lon) by (unfold radians; field).
  rewrite E, Q. replace (radians 0) with 0 by (unfold radians; field). rewrite cos_0, sin_0.
  unfold right_of, enu, towards, cross, right_of, ez, dot, vsub, vscale. cbn [vx vy vz fst snd]. rewrite T.
  replace (radians 0) with 0 by (unfold radians; field). rewrite cos_0.
  rewrite cos_neg, sin_neg, !cos_plus, !sin_plus, cos_PI2, sin_PI2, cos_2a, sin_2a. split; ring.
Qed.
(** ... so that at the centre where nets begin, the section looks along it, rather than
    across. *)
Theorem C187_net_refuted : exists lon lat, right_of (view_angle (rotate_azimuth (lon, lat))) <> v_right (turned (- lon, - lat, 0)) /\
  dot (right_of (view_angle (rotate_azimuth (lon, lat)))) (enu (lon, lat)) = 1.
Proof.
  exists 0, 0. unfold view_angle, rotate_azimuth. cbn [fst].
  replace (- PI / 180 * 0 - PI / 2) with (- (PI / 2)) by field. unfold right_of. rewrite cos_neg, sin_neg, cos_PI2, sin_PI2.
  unfold turned, enu, dot, vsub, vscale. cbn [v_right fst snd vx vy vz].
  replace (radians (90 - - 0)) with (PI / 2) by (unfold radians; field). replace (radians 0) with 0 by (unfold radians; field).
  rewrite cos_0, sin_0, sin_PI2, cos_PI2. split; [|ring]. intros H. injection H. intros. lra.
Qed.
Example C187_ex : sin (PI / 4) = cos (PI / 4).
Proof. apply sin_cos_PI4. Qed.

(** * C188: the data of a plane *)
(** The mean given first is used, of the argument, the mean and the centre; points are
    relative to it unless they were given so; and if there is none, there is an error if and
    only if there are points. *)
Theorem C188_data : forall mean d,
  match mean, rw_mean d, rw_center d with
  | Some m, _, _ | None, Some m, _ | None, None, Some m =>
      exists p, plane_data_of mean d = Ok p /\ pd_mean p = Some m /\ pd_array p = rw_extracted d /\
        (rw_centered d <> None -> pd_centered p = rw_centered d) /\
  (rw_centered d = None -> forall l, rw_extracted d = Some l -> exists c, pd_centered p = Some c /\ Forall2 (fun x y => vadd y m = x) l c) /\
  (rw_centered d = None -> rw_extracted d = None -> pd_centered p = None)
  | None, None, None =>
      match rw_extracted d with
      | Some _ => plane_data_of mean d = Raise TypeError
      | None => plane_data_of mean d = Ok (mkPd None None (rw_centered d))
      end
  end.
Proof.
  assert (F : forall m l, Forall2 (fun x y => vadd y m = x) l (map (fun p => vsub p m) l)).
  { intros m l. induction l as [|p l IH]; constructor; auto. destruct p, m. unfold vadd, vsub. cbn. f_equal; ring. }
  intros mean [dm dc de dce]. cbn [rw_mean rw_center rw_extracted rw_centered]. unfold plane_data_of. cbn [rw_mean rw_center rw_extracted rw_centered].
  assert (K : forall m, exists p,
    match de with None => Ok (mkPd (Some m) None dce)
      | Some arr => Ok (mkPd (Some m) (Some arr) (Some (match dce with Some c => c | None => map (fun p => vsub p m) arr end))) end = Ok p /\
    pd_mean p = Some m /\ pd_array p = de /\ (dce <> None -> pd_centered p = dce) /\
  (dce = None -> forall l, de = Some l -> exists c, pd_centered p = Some c /\ Forall2 (fun x y => vadd y m = x) l c) /\
  (dce = None -> de = None -> pd_centered p = None)).
  { intros m. destruct de as [arr|]; eexists; (split; [reflexivity|]); cbn.
    - split; [reflexivity|]. split; [reflexivity|]. destruct dce; repeat split; try congruence; intros; eexists; split; try reflexivity; try congruence.
      injection H0 as <-. apply F.
    - split; [reflexivity|]. split; [reflexivity|]. repeat split; try congruence. }
  destruct mean as [m|]; [apply K|]. destruct dm as [m|]; [apply K|]. destruct dc as [m|]; [apply K|].
  cbn. destruct de; reflexivity.
Qed.
(** Whichever mean was used, the points are drawn (by digitizedLine) around the common centre
    of the planes. *)
Theorem C188_drawn : forall mean d p l m centre xs ys a, plane_data_of mean d = Ok p -> rw_extracted d = Some l -> rw_centered d = None ->
  pd_mean p = Some m -> exists c, pd_centered p = Some c /\
    digitized_screen xs ys mid a c (vsub m centre) =
      Some (map (fun q => ortho a (sc_zero xs) (sc_ratio xs) (sc_zero ys) (sc_ratio ys) (vsub q centre)) l).
Proof.
  intros mean d p l m centre xs ys a E X C M. unfold plane_data_of in E. rewrite X, C in E.
  destruct (or_else mean (or_else (rw_mean d) (rw_center d))) as [m'|]; [|discriminate]. injection E as <-. cbn in M |- *.
  injection M as ->. eexists. split; [reflexivity|]. rewrite C183_digitized, map_map. f_equal. apply map_ext. intros q.
  f_equal. destruct q, m, centre. unfold vadd, vsub. cbn. f_equal; ring.
Qed.
(** "If we didn't pass a mean, we have to compute one" (hyperbola.ts:497): it never is. *)
Theorem C188_mean_refuted : exists d, rw_extracted d = Some [V3 1 2 3; V3 3 2 1] /\ plane_data_of None d = Raise TypeError.
Proof. exists (mkRaw None None (Some [V3 1 2 3; V3 3 2 1]) None). split; reflexivity. Qed.
Example C188_ex : exists p, plane_data_of None (mkRaw None (Some (V3 1 1 1)) (Some [V3 1 2 3]) None) = Ok p /\ pd_mean p = Some (V3 1 1 1).
Proof. eexists. split; reflexivity. Qed.

(** * C189: hovering *)
(** Traces are lit according to the last list of planes given; null changes nothing. *)
Theorem C189_lit : forall uids props, strokes_after uids props =
  map (fun u => existsb (Nat.eqb u) (last_of (fun h => h) props [])) uids.
Proof.
  intros uids props. unfold strokes_after.
  assert (G : forall props ids, fold_left (fun st h => hover_strokes uids h st) props (map (fun u => existsb (Nat.eqb u) ids) uids) =
    map (fun u => existsb (Nat.eqb u) (last_of (fun h => h) props ids)) uids).
  { clear props. induction props as [|h props IH]; intros ids; cbn [fold_left last_of]; auto. destruct h as [ids'|]; cbn [hover_strokes]; apply IH. }
  rewrite <- G. reflexivity.
Qed.
(** So, when the pointer leaves a plane (onHover gives null), it stays lit. *)
Theorem C189_left_refuted : exists uids u, strokes_after uids [Some [u]; None] <> map (fun _ => false) uids.
Proof. exists [1; 2]%nat, 2%nat. cbn. discriminate. Qed.
Example C189_ex : strokes_after [1; 2]%nat [Some [2%nat]; Some [1%nat]; None] = [true; false].
Proof. reflexivity. Qed.

Print Assumptions C186_order.
Print Assumptions C186_first.
Print Assumptions C186_steady.
Print Assumptions C186_refuted.
Print Assumptions C187_label.
Print Assumptions C187_net.
Print Assumptions C187_net_refuted.
Print Assumptions C188_data.
Print Assumptions C188_drawn.
Print Assumptions C188_mean_refuted.
Print Assumptions C189_lit.
Print Assumptions C189_left_refuted.
