(** C238: beds moved against each other share an identifier. *)
From Coq Require Import Reals Lra Lia List Arith.
From Verif Require Import RVec SpecPlane MPca LSvd LPca LExamples PPca MGroup LGroup LGroup2.
Import ListNotations.
Notation length := List.length.

Lemma first_before : forall sha h os1 a os2 u b oa ob, get h a = Some oa -> get h b = Some ob -> obj_uid sha oa = obj_uid sha ob ->
  a <> b -> ~ In b os1 -> first_with sha h (os1 ++ a :: os2) u <> Some b.
Proof.
  intros sha h os1 a os2 u b oa ob GA GB E NE NI F. unfold first_with in F.
  assert (P : obj_uid sha ob =? u = true).
  { apply find_some in F. destruct F as [_ F]. rewrite GB in F. exact F. }
  induction os1 as [|x t IH]; cbn [app find] in F.
  - rewrite GA, E, P in F. injection F as ->. now apply NE.
  - destruct (match get h x with Some o => obj_uid sha o =? u | None => false end).
    + injection F as ->. apply NI. now left.
    + apply IH; auto. intros I. apply NI. now right.
Qed.
Lemma never_disabled : forall sha us h os1 a os2 b oa ob, get h a = Some oa -> get h b = Some ob -> obj_uid sha oa = obj_uid sha ob ->
  a <> b -> ~ In b os1 -> get (fst (disable_orientations sha h (os1 ++ a :: os2) us)) b = Some ob.
Proof.
  intros sha us. induction us as [|u t IH]; intros h os1 a os2 b oa ob GA GB E NE NI; cbn [disable_orientations]; [exact GB|].
  destruct (first_with sha h (os1 ++ a :: os2) u) as [x|] eqn:F; [|exact GB].
  assert (XB : x <> b) by (intros ->; exact (first_before sha h os1 a os2 u b oa ob GA GB E NE NI F)).
  apply (IH _ os1 a os2 b (if Nat.eqb a x then with_disabled oa else oa) ob); auto.
  - rewrite get_set_disabled, GA. destruct (Nat.eqb_spec a x); destruct (Nat.eqb_spec x a); subst; try congruence; reflexivity.
  - rewrite get_set_disabled, GB. destruct (Nat.eqb_spec x b); destruct (Nat.eqb_spec b x); try congruence; reflexivity.
  - destruct (Nat.eqb a x); exact E.
Qed.

(** A bed with the same points moved anywhere has the same identifier.  Of the two in one list
    the later is never disabled by any call and never found for a group. *)
Theorem C238_hidden : forall svd sha arr t f g h os1 a os2 b oa ob us, PCAOrientation svd arr None None = Ok f ->
  PCAOrientation svd (map (vadd t) arr) None None = Ok g ->
  get h a = Some oa -> o_fit oa = f -> get h b = Some ob -> o_fit ob = g -> a <> b -> ~ In b os1 ->
  let os := os1 ++ a :: os2 in
  uid sha f = uid sha g /\
  get (fst (disable_orientations sha h os us)) b = Some ob /\
  (forall grouped u, find_uid sha h os grouped u <> Ok b) /\
  (forall grouped us xs, find_all sha h os grouped us = Ok xs -> ~ In b xs).
Proof.
  intros svd sha arr t f g h os1 a os2 b oa ob us F G GA FA GB FB NE NI os.
  destruct (C03_observables svd arr None None t f g F G) as (_ & _ & _ & _ & _ & _ & _ & PA & _).
  assert (U : uid sha f = uid sha g) by (unfold uid; now rewrite PA).
  assert (E : obj_uid sha oa = obj_uid sha ob) by (unfold obj_uid; now rewrite FA, FB).
  assert (FU : forall grouped u, find_uid sha h os grouped u <> Ok b).
  { intros grouped u H. unfold find_uid in H. destruct (first_with sha h os u) as [x|] eqn:FW; [|discriminate].
    destruct (existsb _ _); [discriminate|]. injection H as ->. exact (first_before sha h os1 a os2 u b oa ob GA GB E NE NI FW). }
  split; [exact U|]. split; [now apply (never_disabled sha us h os1 a os2 b oa ob)|]. split; [exact FU|].
  intros grouped vs. induction vs as [|v vs IH]; intros xs H I; cbn [find_all] in H.
  - injection H as <-. destruct I.
  - destruct (find_uid sha h os grouped v) as [x| |] eqn:FX; try discriminate. cbn [rbind] in H.
    destruct (find_all sha h os grouped vs) as [ys| |] eqn:FY; try discriminate. cbn [rbind] in H. injection H as <-.
    destruct I as [->|I]; [exact (FU _ _ FX)|exact (IH ys eq_refl I)].
Qed.

(** A group of a single plane has the identifier of its member, which comes before it in the list
    create_groups returns (it appends the groups), so the group is not reached either. *)
Theorem C238_single_group : forall svd sha same_plane arr f o fg, lapack svd -> PCAOrientation svd arr None None = Ok f ->
  o_fit o = f -> group_fit svd same_plane None [o] = Ok fg ->
  uid sha fg = uid sha f /\
  forall h os1 a os2 g oa og us, get h a = Some oa -> o_fit oa = f -> get h g = Some og -> o_fit og = fg -> a <> g -> ~ In g os1 ->
  get (fst (disable_orientations sha h (os1 ++ a :: os2) us)) g = Some og /\
  forall grouped u, find_uid sha h (os1 ++ a :: os2) grouped u <> Ok g.
Proof.
  intros svd sha sp arr f o fg HL F FO G.
  assert (U : uid sha fg = uid sha f).
  { unfold group_fit in G. destruct (PCAOrientation svd (group_array sp [o]) None None) as [f0|e|] eqn:E0; cbn [rbind] in G; try discriminate.
    injection G as <-. change (uid sha (with_mean f0 _)) with (uid sha f0).
    destruct (fit_inv svd arr f HL F) as (_ & _ & m & _ & MU & _ & PA & _ & PR & _).
    unfold group_array in E0. cbn [map concat] in E0. rewrite FO, app_nil_r, app_nil_r in E0. unfold centered_array in E0. rewrite PA, PR in E0.
    destruct sp.
    - rewrite F in E0. now injection E0 as <-.
    - rewrite (centered_mean m) in E0 by auto.
      rewrite (map_ext (fun p => vsub p m) (vadd (vneg m))) in E0 by (intros p; unfold vsub, vadd, vneg; cbn [vx vy vz]; f_equal; ring).
      destruct (C03_observables svd arr None None (vneg m) f f0 F E0) as (_ & _ & _ & _ & _ & _ & _ & P & _). unfold uid. now rewrite P. }
  split; [exact U|]. intros h os1 a os2 g oa og us GA FA GG FG NE NI.
  assert (E : obj_uid sha oa = obj_uid sha og) by (unfold obj_uid; rewrite FA, FG; now symmetry).
  split; [now apply (never_disabled sha us h os1 a os2 g oa og)|].
  intros grouped u H. unfold find_uid in H. destruct (first_with sha h (os1 ++ a :: os2) u) as [x|] eqn:FW; [|discriminate].
  destruct (existsb _ _); [discriminate|]. injection H as ->. exact (first_before sha h os1 a os2 u g oa og GA GG E NE NI FW).
Qed.

(** The identifiers of different measurements are not unique, whatever the digest. *)
Theorem C238_unique_refuted : forall sha : mat3 -> nat, exists arr arr' f g,
  PCAOrientation svd_ref arr None None = Ok f /\ PCAOrientation svd_ref arr' None None = Ok g /\
  center f <> center g /\ center f <> None /\ uid sha f = uid sha g.
Proof.
  intros sha. destruct example_fit as (f & H & _).
  exists (axis_data 3 2 1), (map (vadd (V3 0 0 1)) (axis_data 3 2 1)), f.
  destruct (fit_exists svd_ref (map (vadd (V3 0 0 1)) (axis_data 3 2 1)) lapack_ref) as [g G].
  { rewrite map_length. exact (proj1 (fit_inv svd_ref _ f lapack_ref H)). }
  exists g. split; [exact H|]. split; [exact G|].
  destruct (C03_observables svd_ref _ None None (V3 0 0 1) f g H G) as (_ & _ & _ & _ & _ & _ & _ & PA & CE).
  destruct (fit_inv svd_ref _ f lapack_ref H) as (_ & u & m & _ & _ & _ & _ & PM & _). unfold center in *. rewrite CE, PM. cbn [option_map].
  split; [|split; [discriminate|unfold uid; now rewrite PA]].
  intros X. injection X as X. assert (Z : vz m = vz (vadd (V3 0 0 1) m)) by (rewrite <- X; reflexivity). cbn [vadd vz] in Z. lra.
Qed.

Example C238_ex : forall sha : mat3 -> nat, exists f g, PCAOrientation svd_ref (axis_data 3 2 1) None None = Ok f /\
  PCAOrientation svd_ref (map (vadd (V3 0 0 1)) (axis_data 3 2 1)) None None = Ok g /\
  disable_orientations sha [Live (fresh f); Live (fresh g)] [0; 1]%nat [uid sha g] =
    ([Live (with_disabled (fresh f)); Live (fresh g)], Ok [0; 1]%nat).
Proof.
  intros sha. destruct example_fit as (f & H & _). exists f.
  destruct (fit_exists svd_ref (map (vadd (V3 0 0 1)) (axis_data 3 2 1)) lapack_ref) as [g G].
  { rewrite map_length. exact (proj1 (fit_inv svd_ref _ f lapack_ref H)). }
  exists g. split; [exact H|]. split; [exact G|].
  destruct (C03_observables svd_ref _ None None (V3 0 0 1) f g H G) as (_ & _ & _ & _ & _ & _ & _ & PA & _).
  cbn [disable_orientations]. unfold first_with. cbn [find get nth_error]. unfold obj_uid, fresh, uid. cbn [o_fit].
  rewrite PA, Nat.eqb_refl. reflexivity.
Qed.
Example C238_single_ex : exists f fg, PCAOrientation svd_ref (axis_data 3 2 1) None None = Ok f /\
  group_fit svd_ref false None [fresh f] = Ok fg /\ forall sha : mat3 -> nat, uid sha fg = uid sha f.
Proof.
  destruct example_fit as (f & H & _). exists f.
  assert (N : (3 <= length (group_array false [fresh f]))%nat).
  { destruct (fit_inv svd_ref _ f lapack_ref H) as (R3 & _ & _ & _ & _ & _ & PA & _). unfold group_array, fresh, centered_array. cbn [map concat o_fit].
    rewrite app_nil_r, PA, centered_length. exact R3. }
  destruct (fit_exists svd_ref _ lapack_ref N) as [f0 E].
  assert (G : exists fg, group_fit svd_ref false None [fresh f] = Ok fg) by (unfold group_fit; rewrite E; cbn [rbind]; eauto).
  destruct G as [fg G]. exists fg. split; [exact H|]. split; [exact G|]. intros sha.
  apply (C238_single_group svd_ref sha false (axis_data 3 2 1) f (fresh f) fg lapack_ref H eq_refl G).
Qed.

Print Assumptions C238_hidden.
Print Assumptions C238_single_group.
Print Assumptions C238_unique_refuted.
