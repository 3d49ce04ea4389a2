(** Model of attitude/helpers/dem.py:147-154 (extract_shape) with the pieces of
    shapely it depends on, and of extract_line over rasters with invalid pixels. *)
From Coq Require Import Reals List Arith ZArith Bool.
From Verif Require Import RVec MDem.
Import ListNotations.
Open Scope R_scope.

(** shapely geometries: rings are given without the repeated first point *)
Inductive geometry := LineString (l : list (R * R)) | Polygon (shell : list (R * R)) (holes : list (list (R * R))).
(** each point with its successor around the ring *)
Definition ring_pairs (l : list (R * R)) : list ((R * R) * (R * R)) :=
  match l with [] => [] | p :: t => combine l (t ++ [p]) end.
(** GEOS: half the sum of the cross products around a ring, without its sign *)
Definition ring_area (l : list (R * R)) : R :=
  Rabs (sumf (fun '(p, q) => fst p * snd q - fst q * snd p) (ring_pairs l)) / 2.
(** shapely's area: the shell's less the holes'; lines have none *)
Definition area (g : geometry) : R :=
  match g with LineString _ => 0 | Polygon s hs => ring_area s - sumf ring_area hs end.

(** interpolation.py:20-21 and 29-31: masked pixels are NaN, which any weight, zero
    included, carries into the result *)
Definition lerp_nan (n : nat) (f : nat -> option R) (t : R) : option R :=
  let t := clampR 0 (INR (n - 1)) t in
  let i := floor_nat t in let w := t - INR i in
  match f i, f (Nat.min (S i) (n - 1)) with
  | Some a, Some b => Some ((1 - w) * a + w * b)
  | _, _ => None
  end.
Definition bilinear_nan (h w : nat) (a : nat -> nat -> option R) (x y : R) : option R :=
  lerp_nan h (fun i => lerp_nan w (fun j => a i j) (x - 1 / 2)) (y - 1 / 2).
Definition pixel_value (p : pixel) : option R := match p with Masked => None | Value v => v end.
(** dem.py:57-103, see [extract_line] *)
Definition extract_line_nan (read : raster) (t : affine) (subdivide : list (R * R) -> list (R * R)) (geom : list (R * R)) : option (list (R * R * option R)) :=
  match aff_invert t with
  | None => None
  | Some ti =>
    let px := subdivide (map (fun '(x, y) => aff_apply ti x y) geom) in
    match window_of px with
    | None => None
    | Some ((r0, r1), (c0, c1)) =>
      if (r1 <=? r0)%Z || (c1 <=? c0)%Z then None else
      let band i j := pixel_value (read (Z.to_nat r0 + i)%nat (Z.to_nat c0 + j)%nat) in
      Some (map (fun '(x, y) =>
        let z := bilinear_nan (Z.to_nat (r1 - r0)) (Z.to_nat (c1 - c0)) band (x - IZR c0) (y - IZR r0) in
        let '(gx, gy) := aff_apply t x y in (gx, gy, z)) px)
    end
  end.
Definition as_row (r : R * R * option R) : frow := let '(x, y, z) := r in [Some x; Some y; z].

(** dem.py:147-154: a geometry without area goes to extract_line, whose first statement
    (dem.py:51-55, 63) asks a polygon for its coordinates and then for its parts: shapely's
    polygons have neither.  [NonFinite]: outcomes [extract_line] does not model. *)
Definition extract_shape (h w : nat) (inside : mask) (read : raster) (t : affine)
    (subdivide : list (R * R) -> list (R * R)) (g : geometry) : res (list frow) :=
  rbind (if Req_EM_T (area g) 0 then
           match g with
           | Polygon _ _ => Raise AttributeError
           | LineString l => match extract_line_nan read t subdivide l with Some o => Ok o | None => NonFinite end
           end
         else Ok (extract_area h w inside read t))
    (fun coords => Ok (clean_coordinates (map as_row coords))).
