(** C207: coordinates of lines and polygons. *)
From Coq Require Import Reals Lra Lia List Arith ZArith Bool Psatz FunctionalExtensionality.
From Verif Require Import RVec MDem MDem2 PDem.
Import ListNotations.
Open Scope R_scope.

Lemma clean_rows : forall l, clean_coordinates (map as_row l) =
  flat_map (fun '(x, y, z) => match z with Some v => [[Some x; Some y; Some v]] | None => [] end) l.
Proof.
  induction l as [|[[x y] [v|]] l IH]; auto; cbn; unfold clean_coordinates in IH; rewrite IH; reflexivity.
Qed.
(** pixels with a number, row by row *)
Definition area_rows (h w : nat) (inside : mask) (read : raster) (t : affine) : list frow :=
  flat_map (fun '(i, j) => if inside i j then match read i j with
     Value (Some v) => [[Some (fst (pixel_centre t i j)); Some (snd (pixel_centre t i j)); Some v]] | _ => [] end else []) (all_pixels h w).

(** A polygon with area gives one row for each pixel inside that holds a number. *)
Theorem C207_polygon : forall h w inside read t sub shell holes,
  area (Polygon shell holes) <> 0 -> extract_shape h w inside read t sub (Polygon shell holes) = Ok (area_rows h w inside read t).
Proof.
  intros h w inside read t sub shell holes A. unfold extract_shape. destruct (Req_EM_T _ 0) as [e|_]; [contradiction|].
  cbn [rbind]. f_equal. rewrite clean_rows, C86_extract, flat_map_flat_map. apply flat_map_ext'. intros [i j] _.
  destruct (inside i j); auto. destruct (read i j) as [|[v|]]; auto; cbn [flat_map]; destruct (pixel_centre t i j); reflexivity.
Qed.

Definition ring_sum (f : R * R -> R) (l : list (R * R)) : R := sumf (fun '(p, q) => f q - f p) (ring_pairs l).
Lemma sumf_combine : forall (f : R * R -> R) l l', length l = length l' -> sumf (fun '(p, q) => f q - f p) (combine l l') = sumf f l' - sumf f l.
Proof. induction l as [|p l IH]; intros [|q l'] E; cbn in *; try discriminate; [ring|]. rewrite (IH l') by lia. ring. Qed.
Lemma ring_telescope : forall f l, ring_sum f l = 0.
Proof.
  intros f [|p t]; [reflexivity|]. unfold ring_sum, ring_pairs. rewrite sumf_combine.
  - rewrite sumf_app. cbn. ring.
  - rewrite app_length. cbn. lia.
Qed.
Lemma ring_pairs_in : forall l p q, In (p, q) (ring_pairs l) -> In p l /\ In q l.
Proof.
  intros [|a t] p q H; [destruct H|]. unfold ring_pairs in H. split; [eapply in_combine_l; eauto|].
  apply in_combine_r in H. apply in_app_or in H. destruct H as [H|[<-|[]]]; cbn; auto.
Qed.
(** Rings along one line have no area. *)
Lemma flat_ring : forall u v w l, u <> 0 \/ v <> 0 -> (forall p, In p l -> u * fst p + v * snd p = w) -> ring_area l = 0.
Proof.
  intros u v w l NZ H. set (s := fun p : R * R => u * snd p - v * fst p).
  assert (P : 0 < u * u + v * v) by (destruct NZ; nra).
  assert (E : (u * u + v * v) * sumf (fun '(p, q) => fst p * snd q - fst q * snd p) (ring_pairs l) = w * ring_sum s l).
  { unfold ring_sum. rewrite <- !sumf_scal. apply sumf_ext. intros [p q] I. destruct (ring_pairs_in _ _ _ I) as [Ip Iq].
    unfold s.
    transitivity ((u * fst p + v * snd p) * (u * snd q - v * fst q) - (u * fst q + v * snd q) * (u * snd p - v * fst p)); [ring|].
    rewrite (H p Ip), (H q Iq). ring. }
  rewrite ring_telescope, Rmult_0_r in E. apply Rmult_integral in E. destruct E as [E|E]; [lra|].
  unfold ring_area. rewrite E, Rabs_R0. lra.
Qed.
Theorem C207_flat : forall h w inside read t sub shell u v c, u <> 0 \/ v <> 0 ->
  (forall p, In p shell -> u * fst p + v * snd p = c) ->
  extract_shape h w inside read t sub (Polygon shell []) = Raise AttributeError.
Proof.
  intros h w inside read t sub shell u v c NZ H. unfold extract_shape. destruct (Req_EM_T _ 0) as [_|n]; auto.
  exfalso. apply n. unfold area. rewrite (flat_ring u v c shell NZ H). cbn. ring.
Qed.
(** a triangle is flat exactly when its corners are on a line *)
Theorem C207_triangle : forall h w inside read t sub p q r,
  (exists e, extract_shape h w inside read t sub (Polygon [p; q; r] []) = Raise e) <->
  (fst q - fst p) * (snd r - snd p) = (fst r - fst p) * (snd q - snd p).
Proof.
  intros h w inside read t sub p q r.
  assert (AR : area (Polygon [p; q; r] []) = Rabs ((fst q - fst p) * (snd r - snd p) - (fst r - fst p) * (snd q - snd p)) / 2).
  { unfold area, ring_area, ring_pairs. cbn [combine app sumf fold_right]. rewrite Rminus_0_r. do 2 f_equal. ring. }
  split.
  - intros [e H]. destruct (Req_EM_T (area (Polygon [p; q; r] [])) 0) as [Z|n].
    + rewrite AR in Z. assert (A0 : Rabs ((fst q - fst p) * (snd r - snd p) - (fst r - fst p) * (snd q - snd p)) = 0) by lra.
      pose proof (Rabs_no_R0 ((fst q - fst p) * (snd r - snd p) - (fst r - fst p) * (snd q - snd p))). destruct (Req_dec ((fst q - fst p) * (snd r - snd p) - (fst r - fst p) * (snd q - snd p)) 0); [lra|tauto].
    + rewrite C207_polygon in H by auto. discriminate.
  - intros E. exists AttributeError. unfold extract_shape. destruct (Req_EM_T _ 0) as [_|n]; auto. exfalso. apply n. rewrite AR, E.
    rewrite Rminus_diag_eq by auto. rewrite Rabs_R0. lra.
Qed.
(** Two triangles of area one joined at a corner are refused as well: a closed ring whose
    halves run in opposite senses. *)
Theorem C207_crossed_refuted : exists a b c d : R * R,
  ring_area [a; b; (1, 1)] = 1 /\ ring_area [c; d; (1, 1)] = 1 /\
  forall h w inside read t sub, extract_shape h w inside read t sub (Polygon [a; (1, 1); c; d; (1, 1); b] []) = Raise AttributeError.
Proof.
  exists (0, 0), (0, 2), (2, 2), (2, 0). split; [|split].
  - unfold ring_area, ring_pairs. cbn. rewrite Rabs_left; lra.
  - unfold ring_area, ring_pairs. cbn. rewrite Rabs_left; lra.
  - intros. unfold extract_shape. destruct (Req_EM_T _ 0) as [_|n]; auto. exfalso. apply n. unfold area, ring_area, ring_pairs. cbn.
    match goal with |- Rabs ?x / 2 - 0 = 0 => replace x with 0 by ring end. rewrite Rabs_R0. lra.
Qed.

(** Lines: rows are positions along the line, and where the raster is valid everywhere
    they are those of [extract_line], none lost. *)
Theorem C207_line_valid : forall h w inside read t sub l a out, (forall i j, read i j = Value (Some (a i j))) ->
  extract_line a t sub l = Some out ->
  extract_shape h w inside read t sub (LineString l) = Ok (map (fun '(x, y, z) => [Some x; Some y; Some z]) out).
Proof.
  intros h w inside read t sub l a out RV E. unfold extract_shape. destruct (Req_EM_T _ 0) as [_|n]; [|exfalso; apply n; reflexivity].
  assert (L : forall n f t, lerp_nan n (fun i => Some (f i)) t = Some (lerp n f t)) by reflexivity.
  assert (EL : extract_line_nan read t sub l = Some (map (fun '(x, y, z) => (x, y, Some z)) out)).
  { unfold extract_line_nan. unfold extract_line in E. destruct (aff_invert t) as [ti|]; [|discriminate].
    destruct (window_of _) as [[[r0 r1] [c0 c1]]|]; [|discriminate]. destruct (_ || _)%bool; [discriminate|]. injection E as <-.
    rewrite map_map. f_equal. apply map_ext. intros [x y]. cbv beta iota zeta. unfold aff_apply; cbv beta iota.
    assert (EB : (fun i j => pixel_value (read (Z.to_nat r0 + i)%nat (Z.to_nat c0 + j)%nat)) = fun i j => Some (a (Z.to_nat r0 + i)%nat (Z.to_nat c0 + j)%nat)).
    { apply functional_extensionality. intro i. apply functional_extensionality. intro j. now rewrite RV. }
    rewrite EB. unfold bilinear_nan, bilinear. rewrite <- L. f_equal. }
  rewrite EL. cbn [rbind]. f_equal. rewrite clean_rows. clear. induction out as [|[[x y] z] o IH]; auto. cbn. now rewrite IH.
Qed.
(** Between four pixel centres a row is kept exactly if all four hold a number, even
    where some have no weight. *)
Lemma lerp_nan_value : forall n f t i u, (S i < n)%nat -> 0 <= u < 1 -> t = INR i + u ->
  lerp_nan n f t = match f i, f (S i) with Some a, Some b => Some ((1 - u) * a + u * b) | _, _ => None end.
Proof.
  intros n f t i u I U E.
  assert (CL : clampR 0 (INR (n - 1)) t = t).
  { unfold clampR. assert (INR (S i) <= INR (n - 1)) by (apply le_INR; lia). rewrite S_INR in H. pose proof (pos_INR i).
    rewrite Rmin_right by lra. rewrite Rmax_right by lra. reflexivity. }
  assert (FL : floor_nat t = i).
  { unfold floor_nat. assert (Int_part t = Z.of_nat i) as ->; [|apply Nat2Z.id].
    destruct (base_Int_part t) as [P Q]. pose proof (INR_IZR_INZ i) as Z.
    assert (D : (Int_part t < Z.of_nat i + 1)%Z) by (apply lt_IZR; rewrite plus_IZR; lra).
    assert (D2 : (Z.of_nat i < Int_part t + 1)%Z) by (apply lt_IZR; rewrite plus_IZR; lra). lia. }
  unfold lerp_nan. rewrite CL, FL. rewrite Nat.min_l by lia. replace (t - INR i) with u by lra. reflexivity.
Qed.
Theorem C207_line_gaps : forall h w read t ti sub l out r0 r1 c0 c1 x y,
  extract_shape h w (fun _ _ => false) read t sub (LineString l) = Ok out -> aff_invert t = Some ti ->
  window_of (sub (map (fun '(x, y) => aff_apply ti x y) l)) = Some ((r0, r1), (c0, c1)) -> (0 <= r0)%Z -> (0 <= c0)%Z ->
  In (x, y) (sub (map (fun '(x, y) => aff_apply ti x y) l)) ->
  forall i j u v, 0 <= u < 1 -> 0 <= v < 1 -> x = INR j + 1 / 2 + u -> y = INR i + 1 / 2 + v ->
  (Z.to_nat r0 <= i)%nat -> (S i < Z.to_nat r1)%nat -> (Z.to_nat c0 <= j)%nat -> (S j < Z.to_nat c1)%nat ->
  let p := aff_apply t x y in
  let holds i j := exists z, read i j = Value (Some z) in
  (exists z, In [Some (fst p); Some (snd p); Some z] out) <-> holds i j /\ holds i (S j) /\ holds (S i) j /\ holds (S i) (S j).
Proof.
  intros h w read t ti sub l out r0 r1 c0 c1 x y H ET EW R0 C0 I i j u v U V EX EY I0 I1 J0 J1 p holds.
  unfold extract_shape in H. destruct (Req_EM_T _ 0) as [_|n]; [|exfalso; apply n; reflexivity].
  unfold extract_line_nan in H. rewrite ET, EW in H. destruct (_ || _)%bool eqn:EB; [discriminate|]. cbn [rbind] in H. injection H as <-.
  rewrite clean_rows. set (band := fun i j => pixel_value (read (Z.to_nat r0 + i)%nat (Z.to_nat c0 + j)%nat)).
  assert (BV : forall x' y', (x', y') = (x, y) -> bilinear_nan (Z.to_nat (r1 - r0)) (Z.to_nat (c1 - c0)) band (x' - IZR c0) (y' - IZR r0) =
     match pixel_value (read i j), pixel_value (read i (S j)), pixel_value (read (S i) j), pixel_value (read (S i) (S j)) with
     | Some a, Some b, Some c, Some d => Some ((1 - v) * ((1 - u) * a + u * b) + v * ((1 - u) * c + u * d)) | _, _, _, _ => None end).
  { intros x' y' E. injection E as -> ->. unfold bilinear_nan.
    assert (SX : x - IZR c0 - 1 / 2 = INR (j - Z.to_nat c0) + u).
    { rewrite minus_INR by lia. rewrite (INR_IZR_INZ (Z.to_nat c0)), Z2Nat.id by lia. lra. }
    assert (SY : y - IZR r0 - 1 / 2 = INR (i - Z.to_nat r0) + v).
    { rewrite minus_INR by lia. rewrite (INR_IZR_INZ (Z.to_nat r0)), Z2Nat.id by lia. lra. }
    rewrite (lerp_nan_value _ _ _ (i - Z.to_nat r0) v) by (auto; rewrite Z2Nat.inj_sub by lia; lia).
    rewrite !(lerp_nan_value _ _ _ (j - Z.to_nat c0) u) by (auto; rewrite Z2Nat.inj_sub by lia; lia).
    unfold band. replace (Z.to_nat r0 + (i - Z.to_nat r0))%nat with i by lia. replace (Z.to_nat r0 + S (i - Z.to_nat r0))%nat with (S i) by lia.
    replace (Z.to_nat c0 + (j - Z.to_nat c0))%nat with j by lia. replace (Z.to_nat c0 + S (j - Z.to_nat c0))%nat with (S j) by lia.
    destruct (pixel_value (read i j)), (pixel_value (read i (S j))), (pixel_value (read (S i) j)), (pixel_value (read (S i) (S j))); reflexivity. }
  assert (HV : forall i j, holds i j <-> pixel_value (read i j) <> None).
  { intros i' j'. unfold holds. split.
    - intros [z ->]. discriminate.
    - intros N. destruct (read i' j') as [|[z|]]; cbn in N; try congruence. eauto. }
  rewrite !HV. split.
  - intros [z Z]. apply in_flat_map in Z. destruct Z as ([[gx gy] zz] & A & B). apply in_map_iff in A. destruct A as ([x' y'] & A & Ix).
    destruct zz as [zv|]; [|destruct B]. destruct B as [B|[]]. injection B as -> -> ->.
    change ((fst (aff_apply t x' y'), snd (aff_apply t x' y'), bilinear_nan (Z.to_nat (r1 - r0)) (Z.to_nat (c1 - c0)) band (x' - IZR c0) (y' - IZR r0)) =
      (fst p, snd p, Some z)) in A. injection A as A1 A2 A.
    assert (SAME : (x', y') = (x, y)).
    { pose proof (proj2 (aff_inverse t ti x' y' ET)) as P'. pose proof (proj2 (aff_inverse t ti x y ET)) as P.
      unfold aff_apply in P', P, A1, A2. unfold p, aff_apply in A1, A2. cbn [fst snd] in P', P, A1, A2. rewrite A1, A2 in P'. congruence. }
    rewrite (BV x' y' SAME) in A.
    destruct (pixel_value (read i j)), (pixel_value (read i (S j))), (pixel_value (read (S i) j)), (pixel_value (read (S i) (S j))); try discriminate; repeat split; discriminate.
  - intros (A & B & C & D). pose proof (BV x y eq_refl) as E.
    destruct (pixel_value (read i j)) as [za|]; [|congruence]. destruct (pixel_value (read i (S j))) as [zb|]; [|congruence].
    destruct (pixel_value (read (S i) j)) as [zc|]; [|congruence]. destruct (pixel_value (read (S i) (S j))) as [zd|]; [|congruence].
    eexists. apply in_flat_map. eexists. split.
    + apply in_map_iff. exists (x, y). split; [|exact I]. cbv beta iota. rewrite E. fold p. rewrite (surjective_pairing p). reflexivity.
    + cbn. left. reflexivity.
Qed.
(** three points across a raster of which the second is at (7/4, 7/4) *)
Example C207_line_ex : forall h w read, let l := [(0, 0); (7 / 4, 7 / 4); (4, 4)] in
  exists out, extract_shape h w (fun _ _ => false) read (Aff 1 0 0 0 1 0) (fun l => l) (LineString l) = Ok out /\
  ((exists z, In [Some (7 / 4); Some (7 / 4); Some z] out) <->
   (exists z, read 1%nat 1%nat = Value (Some z)) /\ (exists z, read 1%nat 2%nat = Value (Some z)) /\
   (exists z, read 2%nat 1%nat = Value (Some z)) /\ (exists z, read 2%nat 2%nat = Value (Some z))).
Proof.
  intros h w read l.
  assert (IV : aff_invert (Aff 1 0 0 0 1 0) = Some (Aff 1 0 0 0 1 0)).
  { unfold aff_invert. cbn [fa fb fc fd fe ff]. destruct (Req_EM_T (1 * 1 - 0 * 0) 0); [lra|]. f_equal. f_equal; field. }
  assert (PX : map (fun '(x, y) => aff_apply (Aff 1 0 0 0 1 0) x y) l = l).
  { unfold l. cbn [map]. unfold aff_apply. cbn [fa fb fc fd fe ff]. do 3 (apply f_equal2; [apply f_equal2; field|]). reflexivity. }
  assert (IS : forall r z, IZR z <= r < IZR z + 1 -> Int_part r = z).
  { intros r z Z. destruct (base_Int_part r). assert (D : (Int_part r < z + 1)%Z) by (apply lt_IZR; rewrite plus_IZR; lra).
    assert (D2 : (z < Int_part r + 1)%Z) by (apply lt_IZR; rewrite plus_IZR; lra). lia. }
  assert (W : window_of l = Some ((0, 4), (0, 4))%Z).
  { unfold l, window_of. cbn [fold_left fst snd].
    replace (Rmin (Rmin 0 (7 / 4)) 4) with 0 by (rewrite (Rmin_left 0 (7 / 4)) by lra; rewrite Rmin_left by lra; reflexivity).
    replace (Rmax (Rmax 0 (7 / 4)) 4) with 4 by (rewrite (Rmax_right 0 (7 / 4)) by lra; rewrite Rmax_right by lra; reflexivity).
    rewrite (IS 0 0%Z) by lra. rewrite (IS (Ropp 4) (-4)%Z) by lra. reflexivity. }
  assert (OK : exists out, extract_shape h w (fun _ _ => false) read (Aff 1 0 0 0 1 0) (fun l => l) (LineString l) = Ok out).
  { unfold extract_shape. destruct (Req_EM_T _ 0) as [_|n]; [|exfalso; apply n; reflexivity].
    unfold extract_line_nan. rewrite IV. cbv beta zeta. rewrite PX, W. cbn [Z.leb Z.compare orb rbind]. eauto. }
  destruct OK as [out E]. exists out. split; auto.
  pose proof (C207_line_gaps h w read _ _ (fun l => l) l out 0%Z 4%Z 0%Z 4%Z (7 / 4) (7 / 4) E IV) as G. cbv beta in G. rewrite PX in G.
  specialize (G W ltac:(lia) ltac:(lia) ltac:(unfold l; cbn; auto) 1%nat 1%nat (1 / 4) (1 / 4) ltac:(lra) ltac:(lra) ltac:(cbn; lra) ltac:(cbn; lra)).
  specialize (G ltac:(cbn; lia) ltac:(cbn; lia) ltac:(cbn; lia) ltac:(cbn; lia)). cbv zeta in G.
  replace (aff_apply (Aff 1 0 0 0 1 0) (7 / 4) (7 / 4)) with (7 / 4, 7 / 4) in G by (unfold aff_apply; cbn [fa fb fc fd fe ff]; f_equal; ring).
  exact G.
Qed.
(** a square of 10 x 10 with one valid pixel *)
Example C207_ex : extract_shape 2 2 (fun i j => (j =? 1)%nat) (fun i j => if (i =? 0)%nat then Value (Some 7) else Value None) (Aff 10 0 100 0 (-10) 50)
   (fun l => l) (Polygon [(110, 30); (120, 30); (120, 50); (110, 50)] []) = Ok [[Some 115; Some 45; Some 7]].
Proof.
  rewrite C207_polygon.
  - unfold area_rows, all_pixels. cbn. unfold pixel_centre, aff_apply. cbn [fa fb fc fd fe ff INR fst snd]. apply f_equal, f_equal2; [|reflexivity]. do 2 (apply f_equal2; [apply f_equal; lra|]). reflexivity.
  - unfold area, ring_area, ring_pairs. cbn. rewrite Rabs_right; lra.
Qed.

Print Assumptions C207_polygon.
Print Assumptions C207_flat.
Print Assumptions C207_triangle.
Print Assumptions C207_crossed_refuted.
Print Assumptions C207_line_valid.
Print Assumptions C207_line_gaps.
