(** Model of attitude/helpers/dem.py and of the interpolation it uses.

    A raster is given by its shape and a function from row and column; only indices
    below the shape are read.  The polygon mask (rasterio's geometry_mask), the line in
    pixel coordinates (shapely, subdivide) and the raster itself are inputs. *)
From Coq Require Import Reals List Arith ZArith.
From Verif Require Import RVec.
Import ListNotations.
Open Scope R_scope.
Open Scope bool_scope.

(** * clean_coordinates *)
(** A row of floats; [None] is NaN.  dem.py:20: keep the rows without NaN. *)
Definition frow := list (option R).
Definition isnan (x : option R) : bool := match x with None => true | Some _ => false end.
Definition clean_coordinates (coords : list frow) : list frow :=
  filter (fun r => negb (existsb isnan r)) coords.
(** dem.py:19-27: the numbers printed, the second one only when rows were removed *)
Definition clean_message (coords : list frow) : nat * option nat :=
  let l1 := length coords in let l2 := length (clean_coordinates coords) in
  (l2, if (l2 <? l1)%nat then Some (l1 - l2)%nat else None).

(** * offset_mask *)
Definition mask := nat -> nat -> bool.
(** number of true entries among the first [n] *)
Fixpoint count (n : nat) (f : nat -> bool) : nat :=
  match n with O => O | S n => ((if f n then 1 else 0) + count n f)%nat end.
(** numpy.trim_zeros(x, "f") and (x, "b") *)
Fixpoint trim_front (x : list nat) : list nat :=
  match x with O :: t => trim_front t | _ => x end.
Definition trim_back (x : list nat) : list nat := rev (trim_front (rev x)).
(** dem.py:37-43 on the sums *)
Definition axis_data (x : list nat) : nat * nat :=
  let t := trim_front x in ((length x - length t)%nat, length (trim_back t)).
(** mask.sum(0) and mask.sum(1) *)
Definition sum0 (h w : nat) (m : mask) : list nat := map (fun j => count h (fun i => m i j)) (seq 0 w).
Definition sum1 (h w : nat) (m : mask) : list nat := map (fun i => count w (fun j => m i j)) (seq 0 h).
(** dem.py:30-50: offset (row, column), shape of the slice, and the slice *)
Definition offset_mask (h w : nat) (m : mask) : (nat * nat) * (nat * nat) * mask :=
  let '(xo, xs) := axis_data (sum0 h w m) in
  let '(yo, ys) := axis_data (sum1 h w m) in
  ((yo, xo), (ys, xs), fun i j => m (yo + i)%nat (xo + j)%nat).

(** * extract_area *)
(** affine.Affine(a, b, c, d, e, f) *)
Record affine := Aff { fa : R; fb : R; fc : R; fd : R; fe : R; ff : R }.
(** Affine.__mul__ with a point and with another transform *)
Definition aff_apply (t : affine) (x y : R) : R * R := (fa t * x + fb t * y + fc t, fd t * x + fe t * y + ff t).
Definition aff_mul (s t : affine) : affine :=
  Aff (fa s * fa t + fb s * fd t) (fa s * fb t + fb s * fe t) (fa s * fc t + fb s * ff t + fc s)
      (fd s * fa t + fe s * fd t) (fd s * fb t + fe s * fe t) (fd s * fc t + fe s * ff t + ff s).
Definition aff_translation (x y : R) : affine := Aff 1 0 x 0 1 y.
(** A pixel: masked, or a float that may be NaN *)
Inductive pixel := Masked | Value (z : option R).
Definition raster := nat -> nat -> pixel.
(** numpy.meshgrid(cols, rows), flattened: (column, row) in row-major order *)
Definition meshgrid (cols rows : list nat) : list (nat * nat) :=
  flat_map (fun r => map (fun c => (c, r)) cols) rows.
(** dem.py:105-145.  [read] is the masked band; the window holds the pixels from the
    offset on, and the band is masked again outside the polygon. *)
Definition extract_area (h w : nat) (inside : mask) (read : raster) (t : affine) : list (R * R * option R) :=
  let '((yo, xo), (ys, xs), msk) := offset_mask h w inside in
  let z i j := if msk i j then read (yo + i)%nat (xo + j)%nat else Masked in
  let zs := flat_map (fun i => map (fun j => z i j) (seq 0 xs)) (seq 0 ys) in
  let px := meshgrid (seq xo xs) (seq yo ys) in
  let keep := flat_map (fun '((c, r), z) => match z with Masked => [] | Value v => [(c, r, v)] end) (combine px zs) in
  let aff := aff_mul t (aff_translation (1 / 2) (1 / 2)) in
  map (fun '(c, r, v) => let '(x, y) := aff_apply aff (INR c) (INR r) in (x, y, v)) keep.

(** * extract_line *)
(** scipy.ndimage.map_coordinates, order 1, mode "nearest", along one axis of length n:
    the position is clamped to the samples, then interpolated linearly *)
Definition clampR (lo hi t : R) : R := Rmax lo (Rmin hi t).
Definition floor_nat (t : R) : nat := Z.to_nat (Int_part t).
Definition lerp (n : nat) (f : nat -> R) (t : R) : R :=
  let t := clampR 0 (INR (n - 1)) t in
  let i := floor_nat t in let w := t - INR i in
  (1 - w) * f i + w * f (Nat.min (S i) (n - 1)).
(** interpolation.py:29-31 for one point (x, y): half a pixel off, rows first *)
Definition bilinear (h w : nat) (a : nat -> nat -> R) (x y : R) : R :=
  lerp h (fun i => lerp w (fun j => a i j) (x - 1 / 2)) (y - 1 / 2).
(** dem.py:79-96: the window read, floor of the minimum and ceiling of the maximum pixel
    coordinate on each axis; here the four integers are inputs derived by [window_of] *)
Definition window_of (px : list (R * R)) : option ((Z * Z) * (Z * Z)) :=
  match px with
  | [] => None
  | (x0, y0) :: t =>
      let fold op f a := fold_left (fun m p => op m (f p)) t a in
      let mnx := fold Rmin fst x0 in let mxx := fold Rmax fst x0 in
      let mny := fold Rmin snd y0 in let mxy := fold Rmax snd y0 in
      let fl r := Int_part r in let ce r := (- Int_part (- r))%Z in
      Some ((fl mny, ce mxy), (fl mnx, ce mxx))
  end.
(** Affine.__invert__; [None]: degenerate, an exception *)
Definition aff_invert (t : affine) : option affine :=
  let det := fa t * fe t - fb t * fd t in
  if Req_EM_T det 0 then None else
  let idet := 1 / det in
  let ra := fe t * idet in let rb := - fb t * idet in
  let rd := - fd t * idet in let re := fa t * idet in
  Some (Aff ra rb (- fc t * ra - ff t * rb) rd re (- fc t * rd - ff t * re)).
(** dem.py:57-103 for a two-dimensional line, with the raster's values valid everywhere
    and the window inside the raster.  [subdivide] acts on pixel coordinates (the identity
    when no interval is given).  The z of each point is read from the window; x and y are
    the pixel position mapped back.  [None]: a degenerate transform, no points, or an empty
    window, whose outcome depends on the raster library and is not modelled. *)
Definition extract_line (a : nat -> nat -> R) (t : affine) (subdivide : list (R * R) -> list (R * R)) (geom : list (R * R)) : option (list (R * R * R)) :=
  match aff_invert t with
  | None => None
  | Some ti =>
    let px := subdivide (map (fun '(x, y) => aff_apply ti x y) geom) in
    match window_of px with
    | None => None
    | Some ((r0, r1), (c0, c1)) =>
      if (r1 <=? r0)%Z || (c1 <=? c0)%Z then None else
      let band i j := a (Z.to_nat r0 + i)%nat (Z.to_nat c0 + j)%nat in
      Some (map (fun '(x, y) =>
        let z := bilinear (Z.to_nat (r1 - r0)) (Z.to_nat (c1 - c0)) band (x - IZR c0) (y - IZR r0) in
        let '(gx, gy) := aff_apply t x y in (gx, gy, z)) px)
    end
  end.
