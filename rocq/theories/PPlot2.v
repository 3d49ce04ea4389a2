(** Properties C164-C166: figures of fits, opacities and Monte Carlo poles. *)
From Coq Require Import Reals Lra Lia List Arith Bool Psatz String.
From Verif Require Import RVec Trig SpecPlane LNum SpecConics MPca MAxes MSphere MRecon MStereo MConics LConics LPca LFit LFit2 LAngles LExamples
  LRecon LSlice PStereo MShape PShape MLinear LLinear SpecLinear PLinear MCoord PCoord MPlot PPlot LAxes.
Import ListNotations.
Notation length := List.length.
Open Scope R_scope.

(** * C164: the strike-dip figure *)
(** the offsets of the vertices at level 1, as drawn *)
Definition figure_patch (cx cy level : R) (offs : list (R * R)) : list (option (R * R)) :=
  map (fun o => Some (cx + level * fst o, cy + level * snd o)) offs.
Lemma figure_vertices : forall svd f level, vy (l_coef f) = 0 ->
  map (fun p => obind p (fun '(x, y) => Some (degrees x, 90 - degrees y))) (map Some (l_error_ellipse svd false false level f)) =
  figure_patch 0 (90 - degrees (vx (l_coef f))) level (map (fun e => (degrees (snd e), - degrees (fst e))) (cov_ellipse svd (0, 0) (cov2 (l_cov f)) 1 1000)).
Proof.
  intros svd f level CY. unfold l_error_ellipse, l_ellipse, cov_ellipse, figure_patch. destruct (svd 2%nat _) as [[U s] V]. rewrite !map_map.
  apply map_ext. intros u. cbn [l_vertex fst snd obind MAxes.obind]. rewrite CY. f_equal. unfold degrees. f_equal; field; apply PI_neq0.
Qed.
Lemma plot_false : forall svd a levels f l, alphas a levels = Ok l ->
  drawn svd false false (fun '(x, y) => Some (x, 90 - y)) a levels (OLinear f) =
  (Ok (map (fun '(level, al) => (map (fun p => obind p (fun '(x, y) => Some (degrees x, 90 - degrees y))) (map Some (l_error_ellipse svd false false level f)), al)) (combine levels l)), OLinear f).
Proof.
  intros svd a levels f l A. unfold drawn. rewrite A. generalize (combine levels l). induction l0 as [|[lv al] t IH]; [reflexivity|].
  cbn [draw orient_ellipse map]. rewrite IH. reflexivity.
Qed.
(** The figure draws three ellipses, scaled 1, 2 and 3 about one centre.  The centre is at
    strike 0 and at 90 degrees more than the gradient read as an angle, never at the strike
    and dip of the fit. *)
Theorem C164_figure : forall svd inv r A f, numpy_inv inv -> (0 < r)%nat -> LinearOrientation inv r 3 A = Ok f ->
  let '(s, d) := l_strike_dip f in let cy := 90 + degrees (tan (radians d)) in
  exists offs, error_ellipse_figure svd (OLinear f) =
    (Ok [(figure_patch 0 cy 1 offs, ANum (1 / 2)); (figure_patch 0 cy 2 offs, ANum (2 / 5)); (figure_patch 0 cy 3 offs, ANum (3 / 10))], OLinear f) /\
  length offs = 1000%nat /\ d < 90 <= cy /\
  (spd2 (cov2 (l_cov f)) -> (let '(U, s, V) := svd 2%nat (cov2 (l_cov f)) in is_svdn 2 (cov2 (l_cov f)) U s V) ->
   forall o, In o offs -> contour (cov2 (l_cov f)) 1 (- radians (snd o)) (radians (fst o))).
Proof.
  intros svd inv r A f HI R0 F. destruct (linear_coef inv r A f HI R0 F) as (m & M & CX & CY & _).
  destruct (C79_angles inv r A m HI R0 M) as (f' & F' & K). rewrite F in F'. injection F' as <-.
  destruct (l_strike_dip f) as [s d]. destruct K as (_ & DB & TD & _). cbv zeta. rewrite TD.
  exists (map (fun e => (degrees (snd e), - degrees (fst e))) (cov_ellipse svd (0, 0) (cov2 (l_cov f)) 1 1000)). split; [|split; [|split]].
  - unfold error_ellipse_figure, strike_dip_plot, or_default. rewrite (plot_false svd _ _ f [ANum (1 / 2); ANum (2 / 5); ANum (3 / 10)]) by reflexivity.
    unfold combine, map at 1. rewrite !figure_vertices by auto. rewrite CX, degrees_opp.
    replace (90 - - degrees (sqrt (m 0%nat * m 0%nat + m 1%nat * m 1%nat))) with (90 + degrees (sqrt (m 0%nat * m 0%nat + m 1%nat * m 1%nat))) by ring. reflexivity.
  - rewrite map_length. unfold cov_ellipse. destruct (svd 2%nat _) as [[? ?] ?]. rewrite map_length. apply linspace_length.
  - pose proof (degrees_le 0 _ (sqrt_pos (m 0%nat * m 0%nat + m 1%nat * m 1%nat))) as Q. rewrite degrees_0 in Q. lra.
  - intros PD HS o I. apply in_map_iff in I. destruct I as (e & <- & I). cbn [fst snd]. rewrite <- radians_opp, Ropp_involutive, !radians_degrees.
    pose proof (proj2 (C111_contour svd (0, 0) _ 1 1000 PD HS) e I) as Q. cbn [fst snd] in Q. now rewrite !Rminus_0_r in Q.
Qed.
(** With [spherical=True] trend and plunge change places: the centre is drawn at
    (cos s cos d, cos s sin d, - sin s). *)
Theorem C164_spherical : forall svd inv r A f, numpy_inv inv -> (0 < r)%nat -> LinearOrientation inv r 3 A = Ok f ->
  let s := l_azimuth f in let d := l_slope f in exists vs,
  strike_dip_plot svd (Some [0]) true None (OLinear f) = (Ok [(vs, ANum 1)], OLinear f) /\
  length vs = 1000%nat /\ forall v, In v vs -> exists q, v = Some q /\ MRecon.vec_of q = V3 (cos s * cos d) (cos s * sin d) (- sin s).
Proof.
  intros svd inv r A f HI R0 F. destruct (linear_coef inv r A f HI R0 F) as (m & M & CX & CY & _).
  destruct (linear_fields inv r A f HI R0 F) as (m' & V0 & M' & _ & _ & _ & CO). 
  assert (SL : l_slope f = atan (- vx (l_coef f))).
  { unfold LinearOrientation in F. rewrite (reg3 r A R0) in F. cbn [rbind] in F. destruct (coefs inv _) as [v| |]; try discriminate. cbn [rbind g_k Nat.eqb negb] in F.
    destruct (covariance inv _) as [V| |]; try discriminate. cbn [rbind] in F. injection F as <-. reflexivity. }
  intros s d. eexists. split; [|split].
  - unfold strike_dip_plot, drawn, or_default, alphas. cbn [List.length Nat.eqb combine map draw orient_ellipse rbind]. reflexivity.
  - rewrite !map_length. unfold l_error_ellipse. rewrite map_length. unfold l_ellipse, cov_ellipse. destruct (svd 2%nat _) as [[? ?] ?]. rewrite map_length. apply linspace_length.
  - intros v I. rewrite map_map in I. apply in_map_iff in I. destruct I as ([x y] & <- & I). unfold l_error_ellipse in I. apply in_map_iff in I. destruct I as ([e0 e1] & W & I).
    unfold l_ellipse, cov_ellipse in I. destruct (svd 2%nat _) as [[? ?] ?]. apply in_map_iff in I. destruct I as (u & I & _). cbn [fst snd] in I. rewrite CY in I.
    assert (X : e0 = vx (l_coef f) /\ e1 = 0) by (injection I as <- <-; split; ring). destruct X as [-> ->]. clear I.
    unfold l_vertex in W. cbn [fst snd] in W. rewrite <- SL in W.
    assert (A0 : atan2 (- 0) (- vx (l_coef f)) = 0).
    { rewrite Ropp_0, CX, Ropp_involutive. pose proof (sqrt_pos (m 0%nat * m 0%nat + m 1%nat * m 1%nat)) as SP. destruct SP as [SP|SP]; [|rewrite <- SP; apply atan2_00].
      set (h := sqrt _) in *. replace 0 with (h * sin 0) at 1 by (rewrite sin_0; ring). replace h with (h * cos 0) at 2 by (rewrite cos_0; ring). pose proof PI_pos. apply atan2_of_polar; lra. }
    rewrite A0, Rplus_0_r in W. fold s d in W. injection W as <- <-. cbn [obind MAxes.obind].
    destruct (line_spec (PI + s) (PI / 2 - d)) as (q & E & VQ). exists q. split; auto. rewrite VQ.
    rewrite cos_shift, sin_shift. replace (PI + s) with (s + PI) by ring. rewrite neg_cos, neg_sin. apply vec3_eq; vunf; ring.
Qed.
(** A PCA fit gets no figure. *)
Theorem C164_pca : forall svd svdn arr f cs c, lapack svd -> PCAOrientation svd arr None None = Ok f ->
  covariance_noise f = Some c -> 0 < vx c -> 0 < vy c -> 0 < vz c ->
  fst (error_ellipse_figure svdn (OPca (run_calls f cs))) = Raise ValueError.
Proof.
  intros svd svdn arr f cs c L F CV C0 C1 C2. pose proof (C137_raises svd svdn arr f cs 1 c L F CV C0 C1 C2 ltac:(lra)) as H.
  unfold error_ellipse_figure, strike_dip_plot, drawn, or_default, alphas. cbn [List.length Nat.eqb combine map draw orient_ellipse].
  destruct (pca_error_ellipse svdn 1 (run_calls f cs)) as [e g]. cbn [fst] in H. rewrite H. reflexivity.
Qed.

(** * C165: opacities and exceptions of the plot functions *)
Lemma draw_alphas : forall svd sp ve place las o ps o', draw svd sp ve place las o = (Ok ps, o') -> map snd ps = map snd las.
Proof.
  induction las as [|[lv a] t IH]; intros o ps o' H; cbn [draw] in H; [injection H as <- _; reflexivity|].
  destruct (orient_ellipse svd sp ve lv o) as [[el| |] o1]; try discriminate. destruct (draw svd sp ve place t o1) as [[qs| |] o2] eqn:E; cbn [rbind] in H; try discriminate.
  injection H as <- _. cbn [map snd]. f_equal. eauto.
Qed.
(** Each patch gets its own number when there is one opacity per level, and otherwise the
    whole list, which is not an opacity. *)
Theorem C165_opacity : forall svd sp ve place l levels o ps o', drawn svd sp ve place (AList l) levels o = (Ok ps, o') ->
  length ps = length levels /\
  (length l = length levels -> forall i, (i < length levels)%nat -> nth i (map snd ps) (ANum 0) = ANum (nth i l 0)) /\
  (length l <> length levels -> forall p, In p ps -> snd p = AList l).
Proof.
  intros svd sp ve place l levels o ps o' H. unfold drawn, alphas in H. destruct (Nat.eqb_spec (length l) (length levels)) as [e|e].
  - apply draw_alphas in H. assert (K : map snd ps = map ANum l).
    { rewrite H. clear H. revert levels e. induction l as [|x l IH]; intros [|lv levels] e; try discriminate; [reflexivity|]. cbn [map combine snd]. f_equal. apply IH. now injection e. }
    split; [|split]. + apply (f_equal (@List.length _)) in K. rewrite !map_length in K. exact (eq_trans K e). + intros _ i I. rewrite K. now rewrite (map_nth ANum l 0 i). + congruence.
  - apply draw_alphas in H. assert (K : map snd ps = repeat (AList l) (length levels)).
    { rewrite H. clear. induction levels as [|x t IH]; [reflexivity|]. cbn [List.length repeat combine map snd]. f_equal. exact IH. }
    split; [|split]. + apply (f_equal (@List.length _)) in K. rewrite map_length, repeat_length in K. exact K. + congruence.
    + intros _ p I. apply (in_map snd) in I. rewrite K in I. now apply repeat_spec in I.
Qed.
Lemma draw_linear : forall svd sp ve place las f, exists ps, draw svd sp ve place las (OLinear f) = (Ok ps, OLinear f).
Proof.
  induction las as [|[lv a] t IH]; intros f; cbn [draw]; [eauto|]. cbn [orient_ellipse]. destruct (IH f) as [ps ->]. cbn [rbind]. eauto.
Qed.
(** With its default opacity [normal] raises for every orientation and every list of levels;
    [trend_plunge] draws a regression fit, with usable opacities only for a single level. *)
Theorem C165_defaults : forall svd levels o f,
  normal_plot svd levels None o = (Raise TypeError, o) /\
  exists ps, trend_plunge svd levels None (OLinear f) = (Ok ps, OLinear f) /\
  ((forall p, In p ps -> exists x, snd p = ANum x) <-> match levels with None => True | Some l => (length l <= 1)%nat end).
Proof.
  intros svd levels o f. split; [reflexivity|]. unfold trend_plunge, or_default.
  set (lv := match levels with None => [1] | Some l => l end). set (place := fun '(t, p) => line_point p t).
  destruct (alphas (AList [7 / 10]) lv) as [l| |] eqn:A; [|unfold alphas in A; destruct (_ =? _)%nat; discriminate|unfold alphas in A; destruct (_ =? _)%nat; discriminate].
  destruct (draw_linear svd true true place (combine lv l) f) as [ps D].
  assert (H : drawn svd true true place (AList [7 / 10]) lv (OLinear f) = (Ok ps, OLinear f)) by (unfold drawn; now rewrite A). exists ps. split; [exact H|].
  destruct (C165_opacity _ _ _ _ _ _ _ _ _ H) as (LP & K1 & K2). cbn [List.length] in K1, K2.
  assert (LV : (match levels with None => True | Some l => (length l <= 1)%nat end) <-> (length lv <= 1)%nat) by (unfold lv; destruct levels; simpl; intuition lia).
  rewrite LV. destruct lv as [|x [|y t]].
  - destruct ps; [|discriminate]. simpl. split; intros; [lia|contradiction].
  - destruct ps as [|p [|]]; try discriminate. split; [simpl; lia|]. intros _ q [<-|[]]. specialize (K1 eq_refl 0%nat ltac:(simpl; lia)). cbn [map nth] in K1. eauto.
  - split; [|simpl; lia]. intros Q. exfalso. destruct ps as [|p ps]; [discriminate|]. destruct (Q p (or_introl eq_refl)) as [z Z].
    rewrite (K2 ltac:(simpl; lia) p (or_introl eq_refl)) in Z. discriminate.
Qed.
(** No plot of a PCA fit with positive variances: whatever the opacities, an exception. *)
Theorem C165_pca : forall svd svdn arr f cs c lv levels l sp, lapack svd -> PCAOrientation svd arr None None = Ok f ->
  covariance_noise f = Some c -> 0 < vx c -> 0 < vy c -> 0 < vz c -> lv <> 0 -> let o := OPca (run_calls f cs) in
  fst (trend_plunge svdn (Some (lv :: levels)) (Some (AList l)) o) = Raise ValueError /\
  fst (normal_plot svdn (Some (lv :: levels)) (Some (AList l)) o) = Raise ValueError /\
  fst (strike_dip_plot svdn (Some (lv :: levels)) sp (Some (AList l)) o) = Raise ValueError /\
  plane_confidence (lv :: levels) (AList l) c o = Raise ValueError.
Proof.
  intros svd svdn arr f cs c lv levels l sp L F CV C0 C1 C2 LV o. pose proof (C137_raises svd svdn arr f cs lv c L F CV C0 C1 C2 LV) as H.
  assert (G : forall s v place, fst (drawn svdn s v place (AList l) (lv :: levels) o) = Raise ValueError).
  { intros s v place. unfold drawn, alphas. destruct (_ =? _)%nat eqn:E.
    - destruct l as [|x l]; [discriminate|]. cbn [map combine draw]. unfold o at 1. cbn [orient_ellipse].
      destruct (pca_error_ellipse svdn lv (run_calls f cs)) as [e g]. cbn [fst] in H. rewrite H. reflexivity.
    - cbn [List.length repeat combine draw]. unfold o at 1. cbn [orient_ellipse].
      destruct (pca_error_ellipse svdn lv (run_calls f cs)) as [e g]. cbn [fst] in H. rewrite H. reflexivity. }
  split; [|split; [|split]]; try apply G. unfold plane_confidence.
  assert (A : exists a, alphas (AList l) (lv :: levels) = Ok a) by (unfold alphas; destruct (_ =? _)%nat; eauto). destruct A as [a ->]. cbn [rbind].
  unfold o. set (ps := MStereo.plane_errors _ _ _ _ _ _). assert (LP : length ps = 1000%nat).
  { unfold ps, MStereo.plane_errors. rewrite map_length. destruct (String.eqb _ _); [|destruct (String.eqb _ _)]; rewrite ?map_length; unfold MStereo.ellipse; rewrite !map_length; apply linspace_length. }
  clearbody ps. destruct ps as [|p1 [|p2 [|p3 ps]]]; try (cbn in LP; lia). all: reflexivity.
Qed.
Lemma ellipse_left : forall svd lv f, snd (pca_error_ellipse svd lv f) = flip_down_axes f.
Proof. reflexivity. Qed.
Lemma flip_twice : forall f, flip_down_axes (flip_down_axes f) = flip_down_axes f.
Proof.
  intros f. unfold flip_down_axes at 2 3. destruct (Rlt_dec (vz (r2 (p_axes f))) 0) as [b|b].
  - unfold flip_down_axes. destruct (Rlt_dec _ 0) as [c|c]; [|reflexivity]. exfalso. revert c. cbn [with_axes p_axes]. munf. lra.
  - unfold flip_down_axes. destruct (Rlt_dec _ 0); [lra|reflexivity].
Qed.
Lemma draw_left : forall svd sp ve place las f, las <> [] -> snd (draw svd sp ve place las (OPca f)) = OPca (flip_down_axes f).
Proof.
  induction las as [|[lv a] t IH]; intros f H; [congruence|]. cbn [draw orient_ellipse].
  pose proof (ellipse_left svd lv f) as E. destruct (pca_error_ellipse svd lv f) as [r g]. cbn [snd] in E. subst g.
  destruct r as [el| |]; try reflexivity. destruct t as [|x t]; [reflexivity|].
  specialize (IH (flip_down_axes f) ltac:(discriminate)). destruct (draw svd sp ve place (x :: t) _) as [q o]. cbn [snd] in *. rewrite IH.
  now rewrite flip_twice.
Qed.
(** Although they fail, with at least one level and a list of opacities they leave the fit with
    its third axis upwards: unchanged if it was, and all three axes reversed if it was not. *)
Theorem C165_left : forall svdn f lv levels l sp, let turned_up o := exists f', o = OPca f' /\ 0 <= vz (r2 (p_axes f')) /\
    (0 <= vz (r2 (p_axes f)) -> f' = f) /\
    (vz (r2 (p_axes f)) < 0 -> p_axes f' = mneg (p_axes f) /\ p_array f' = p_array f /\ p_s f' = p_s f) in
  turned_up (snd (trend_plunge svdn (Some (lv :: levels)) (Some (AList l)) (OPca f))) /\
  turned_up (snd (normal_plot svdn (Some (lv :: levels)) (Some (AList l)) (OPca f))) /\
  turned_up (snd (strike_dip_plot svdn (Some (lv :: levels)) sp (Some (AList l)) (OPca f))).
Proof.
  intros svdn f lv levels l sp turned_up.
  assert (T : turned_up (OPca (flip_down_axes f))).
  { exists (flip_down_axes f). split; auto. unfold flip_down_axes. destruct (Rlt_dec _ 0) as [b|b].
    - cbn [with_axes p_axes p_array p_s]. split; [munf; lra|]. split; [lra|]. auto.
    - split; [lra|]. split; auto. lra. }
  assert (G : forall s v place, turned_up (snd (drawn svdn s v place (AList l) (lv :: levels) (OPca f)))).
  { intros s v place. unfold drawn, alphas. destruct (_ =? _)%nat eqn:E.
    - destruct l as [|x l]; [discriminate|]. rewrite draw_left; [exact T|]. discriminate.
    - rewrite draw_left; [exact T|]. discriminate. }
  split; [|split]; apply G.
Qed.
(** plane_confidence draws no plane at all: with at least one level it fails for every fit, of
    either kind. *)
Theorem C165_never : forall lv levels a c o, plane_confidence (lv :: levels) a c o <> Ok tt.
Proof.
  intros lv levels a c o. unfold plane_confidence. destruct (alphas a (lv :: levels)); cbn [rbind]; try discriminate.
  destruct o as [f|f]; discriminate.
Qed.

(** * C166: Monte Carlo poles *)
(** a vector turned by a quarter about the vertical, clockwise seen from above *)
Definition quarter_turn (v : vec3) : vec3 := V3 (vy v) (- vx v) (vz v).
Theorem C166_pole : forall v, v <> vzero -> exists q, mc_point v = Some q /\
  let n := vscale (/ norm v) v in
  MRecon.vec_of q = (if Rlt_dec (vz v) 0 then vneg (quarter_turn n) else quarter_turn n) /\
  (MRecon.vec_of q = n \/ MRecon.vec_of q = vneg n <-> vx v = 0 /\ vy v = 0).
Proof.
  intros v NZ. assert (NP : 0 < norm v) by (destruct (norm_nonneg v) as [|Z]; [auto|exfalso; apply NZ, norm_zero_iff; auto]). unfold mc_point, fdiv. destruct (Req_EM_T (norm v) 0) as [|NN]; [lra|]. cbn [obind MAxes.obind].
  set (n := vscale (/ norm v) v). assert (U : unit3 n).
  { unfold n, unit3, nrm2. rewrite dot_scale_l, dot_scale_r. change (dot v v) with (nrm2 v). rewrite <- norm_sqr. field. lra. }
  assert (PN : plane_normal (degrees (atan2 (vx v) (vy v))) (degrees (acos (vz v / norm v))) = quarter_turn n).
  { pose proof (raw_angles n U) as R. rewrite (norm_unit n U) in R. unfold n in R at 1 2 3. unfold vscale in R at 1 2 3. cbn [vx vy vz] in R.
    rewrite atan2_scale in R by (apply Rinv_0_lt_compat; lra). replace (/ norm v * vz v / 1) with (vz v / norm v) in R by (field; lra).
    rewrite plane_normal_components in R |- *. rewrite radians_minus, radians_90 in R. rewrite cos_minus, sin_minus, cos_PI2, sin_PI2 in R.
    unfold quarter_turn. rewrite <- R. apply vec3_eq; cbn [vx vy vz]; ring. }
  destruct (pole_spec (degrees (atan2 (vx v) (vy v))) (degrees (acos (vz v / norm v)))) as (q & E & V). exists q. split; auto. cbv zeta. fold n. rewrite PN in V.
  assert (B : 90 < degrees (acos (vz v / norm v)) <-> vz v < 0).
  { assert (ZB : -1 <= vz v / norm v <= 1).
    { replace (vz v / norm v) with (vz n) by (unfold n, vscale; cbn [vz]; field; lra). destruct n as [a b z]. unfold unit3, nrm2, dot in U. cbn [vx vy vz] in *. split; nra. }
    pose proof (acos_bound (vz v / norm v)) as AB. pose proof (cos_acos' _ ZB) as CA. set (t := acos (vz v / norm v)) in *.
    assert (ZV : vz v = cos t * norm v) by (rewrite CA; field; lra). pose proof PI_pos as PP. split; intros H.
    - assert (PI / 2 < t). { rewrite <- (radians_degrees t), <- radians_90. now apply radians_lt. }
      pose proof (cos_lt_0 t ltac:(lra) ltac:(lra)). rewrite ZV. nra.
    - destruct (Rlt_dec 90 (degrees t)) as [|NL]; auto. exfalso. assert (t <= PI / 2). { rewrite <- (radians_degrees t), <- radians_90. apply radians_le. lra. }
      pose proof (cos_ge_0 t ltac:(lra) ltac:(lra)). nra. }
  assert (V' : MRecon.vec_of q = (if Rlt_dec (vz v) 0 then vneg (quarter_turn n) else quarter_turn n)).
  { rewrite V. destruct (Rlt_dec 90 _), (Rlt_dec (vz v) 0); auto; exfalso; tauto. }
  split; auto. rewrite V'. assert (NX : vx n = / norm v * vx v) by reflexivity. assert (NY : vy n = / norm v * vy v) by reflexivity.
  assert (IP : 0 < / norm v) by (apply Rinv_0_lt_compat; lra).
  assert (Z : vx v = 0 /\ vy v = 0 <-> vx n = 0 /\ vy n = 0).
  { rewrite NX, NY. split; intros [X Y]; [rewrite X, Y; split; ring|split; apply Rmult_eq_reg_l with (/ norm v); lra]. }
  rewrite Z. clearbody n. clear - U. destruct n as [x y z]. unfold quarter_turn, vneg, unit3, nrm2, dot in *. cbn [vx vy vz] in *. split.
  - destruct (Rlt_dec _ 0); intros [H|H]; assert (H1 := f_equal vx H); assert (H2 := f_equal vy H); cbn [vx vy] in H1, H2; split; lra.
  - intros [-> ->]. destruct (Rlt_dec _ 0); [right|left]; f_equal; lra.
Qed.
(** The vectors drawn have the components of the draws along the axes of the fit, scaled by
    the noise and the level, added to the extent of the fit along its normal. *)
Theorem C166_noise : forall f c draws level, orthonormal (p_axes f) -> covariance_noise f = Some c ->
  exists vs, strike_dip_montecarlo draws level f = Some (map mc_point vs) /\ length vs = length draws /\
  forall i z v, nth_error draws i = Some z -> nth_error vs i = Some v ->
    dot v (r0 (p_axes f)) = level * vx z * vx c /\ dot v (r1 (p_axes f)) = level * vy z * vy c /\
    dot v (r2 (p_axes f)) = vz (p_s f) + level * vz z * vz c.
Proof.
  intros f c draws level O C. exists (map (mc_vector f c level) draws). unfold strike_dip_montecarlo. rewrite C. cbn [option_map].
  split; [now rewrite map_map|]. split; [apply map_length|]. intros i z v Z V. rewrite (map_nth_error _ _ _ Z) in V. injection V as <-.
  unfold mc_vector. set (e := vadd _ _). destruct (p_axes f) as [a0 a1 a2] eqn:A.
  destruct O as (H0 & H1 & H2 & H01 & H02 & H12). cbn [r0 r1 r2] in *. unfold nrm2 in *.
  unfold vm. cbn [r0 r1 r2]. rewrite !dot_add_l, !dot_scale_l.
  rewrite (dot_comm a1 a0), (dot_comm a2 a0), (dot_comm a2 a1), H0, H1, H2, H01, H02, H12.
  unfold e, vadd, vmul, vscale. cbn [vx vy vz]. repeat split; ring.
Qed.
(** Without noise every point is drawn at one place, whose angle to the fitted normal has
    cosine cos^2 of the dip: the wrong pole for every dipping plane. *)
Theorem C166_fit : forall svd arr f k, lapack svd -> PCAOrientation svd arr None None = Ok f -> 0 < vz (p_s f) ->
  exists pts, strike_dip_montecarlo (repeat vzero k) 1 f = Some pts /\ length pts = k /\
  forall p, In p pts -> exists q, p = Some q /\ dot (MRecon.vec_of q) (p_normal f) = vz (p_normal f) * vz (p_normal f) /\
    (MRecon.vec_of q = p_normal f <-> p_normal f = ez).
Proof.
  intros svd arr f k L F S2. destruct (fit_inv _ _ _ L F) as (NE & u & m & Hs & _ & _ & _ & _ & _ & _ & D).
  pose proof (svd_v _ _ _ _ Hs) as O. pose proof (covariance_noise_value _ _ _ L F) as CV.
  unfold strike_dip_montecarlo. rewrite CV. cbn [option_map]. eexists. split; [reflexivity|]. split; [now rewrite map_length, repeat_length|].
  intros p I. apply in_map_iff in I. destruct I as (z & <- & I). apply repeat_spec in I. subst z.
  set (c := vscale _ _). assert (MV : mc_vector f c 1 vzero = vscale (vz (p_s f)) (r2 (p_axes f))).
  { unfold mc_vector. destruct (p_axes f) as [a0 a1 a2]. unfold vm. cbn [r0 r1 r2]. apply vec3_eq; vunf; ring. }
  rewrite MV. set (n := r2 (p_axes f)) in *. assert (U : unit3 n) by (apply orthonormal_unit2; exact O).
  assert (NZ : vscale (vz (p_s f)) n <> vzero).
  { intros Z. apply norm_zero_iff in Z. rewrite norm_scale, (norm_unit n U) in Z. rewrite Rabs_pos_eq in Z by lra. lra. }
  destruct (C166_pole _ NZ) as (q & E & V & _). exists q. split; auto.
  assert (NN : vscale (/ norm (vscale (vz (p_s f)) n)) (vscale (vz (p_s f)) n) = n).
  { rewrite norm_scale, (norm_unit n U), Rabs_pos_eq by lra. apply vec3_eq; vunf; field; lra. }
  rewrite NN in V. assert (PN : p_normal f = if Rlt_dec (vz n) 0 then vneg n else n).
  { destruct D as (X & _). unfold p_normal. rewrite X. unfold derived_normal. fold n. destruct (Rlt_dec (vz n) 0); reflexivity. }
  assert (SG : vz (vscale (vz (p_s f)) n) < 0 <-> vz n < 0) by (unfold vscale; cbn [vz]; split; intros; nra).
  assert (VQ : MRecon.vec_of q = quarter_turn (p_normal f)).
  { rewrite V, PN. destruct (Rlt_dec (vz (vscale (vz (p_s f)) n)) 0), (Rlt_dec (vz n) 0); try (exfalso; tauto); auto; apply vec3_eq; unfold quarter_turn, vneg; cbn [vx vy vz]; ring. }
  rewrite VQ. assert (UP : unit3 (p_normal f) /\ 0 <= vz (p_normal f)).
  { rewrite PN. destruct (Rlt_dec (vz n) 0); (split; [|unfold vneg; cbn [vz]; lra]); unfold unit3 in *; vunf; lra. }
  clearbody n. destruct (p_normal f) as [x y w]. unfold quarter_turn, unit3, nrm2, dot, ez in *. cbn [vx vy vz] in *. split; [ring|]. destruct UP as [UP WP]. split.
  - intros H. injection H as H1 H2. assert (x = 0) by lra. assert (y = 0) by lra. subst. f_equal; nra.
  - intros H. injection H as -> -> ->. f_equal; lra.
Qed.
Example C164_ex : forall inv, numpy_inv inv -> exists f, LinearOrientation inv 4 3 (array_of cross_pts) = Ok f /\ spd2 (cov2 (l_cov f)).
Proof. intros inv HI. destruct (cross_spd inv HI) as (f & E & _ & _ & PD). eauto. Qed.
Example C165_ex : exists f, PCAOrientation LSvd.svd_ref (axis_data 3 2 1) None None = Ok f /\
  forall svdn, fst (trend_plunge svdn (Some [1; 2]) (Some (AList [1 / 2; 1 / 4])) (OPca f)) = Raise ValueError.
Proof.
  destruct axis_variances as (f & c & F & CV & C0 & C1 & C2). exists f. split; auto. intros svdn.
  exact (proj1 (C165_pca _ svdn _ f [] c 1 [2] [1 / 2; 1 / 4] true lapack_ref F CV C0 C1 C2 ltac:(lra))).
Qed.
Example C166_ex : exists f pts q, PCAOrientation LSvd.svd_ref tilted_data None None = Ok f /\
  strike_dip_montecarlo [vzero] 1 f = Some pts /\ pts = [Some q] /\ dot (MRecon.vec_of q) (p_normal f) = 16 / 25.
Proof.
  destruct tilted_fit as (f & F & N & _ & S2). destruct (C166_fit _ _ f 1 lapack_ref F S2) as (pts & E & L & K).
  destruct pts as [|p [|]]; try discriminate. destruct (K p (or_introl eq_refl)) as (q & -> & D & _). exists f, [Some q], q.
  repeat split; auto. rewrite D, N. cbn [vz]. lra.
Qed.

Print Assumptions C164_figure.
Print Assumptions C164_spherical.
Print Assumptions C164_pca.
Print Assumptions C165_opacity.
Print Assumptions C165_defaults.
Print Assumptions C165_pca.
Print Assumptions C165_left.
Print Assumptions C165_never.
Print Assumptions C166_pole.
Print Assumptions C166_noise.
Print Assumptions C166_fit.
