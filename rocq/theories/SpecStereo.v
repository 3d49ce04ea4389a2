(** Specification vocabulary for error surfaces drawn on a stereonet. *)
From Coq Require Import Reals Lra List.
From Verif Require Import RVec Trig.
Open Scope R_scope.

(** The direction in space (x east, y north, z up) that a plotted longitude and
    latitude stands for.  In the traditional layout the stereonet's axis is
    vertical and its pole is north; planes and normals use opposite signs of
    north.  In the other layout latitude is elevation and longitude 0 is south. *)
Definition plane_dir (traditional : bool) (p : R * R) : vec3 :=
  let '(lon, lat) := p in
  if traditional then V3 (cos lat * sin lon) (sin lat) (cos lat * cos lon)
  else V3 (cos lat * sin lon) (- (cos lat * cos lon)) (sin lat).
Definition normal_dir (traditional : bool) (p : R * R) : vec3 :=
  let '(lon, lat) := p in
  if traditional then V3 (cos lat * sin lon) (- sin lat) (cos lat * cos lon)
  else V3 (cos lat * sin lon) (- (cos lat * cos lon)) (sin lat).

(** [i]-th of [n] equally spaced angles from 0 to 2 pi inclusive *)
Definition angle_at (n i : nat) : R := 2 * PI * (INR i / INR (n - 1)).

(** Length of the in-plane error vector at angle [u] *)
Definition spread (d0 d1 u : R) : R := sqrt (d0 * cos u * (d0 * cos u) + d1 * sin u * (d1 * sin u)).
(** Half-width of the error band at angle [u] *)
Definition half_width (d0 d1 d2 level u : R) : R := atan (2 * d2 * level / spread d0 d1 u).

(** The third axis, turned upwards *)
Definition upward (axes : mat3) : vec3 := if Rlt_dec (vz (r2 axes)) 0 then vneg (r2 axes) else r2 axes.
(** Mirror image in the plane through the origin with unit normal [n] *)
Definition mirror (n v : vec3) : vec3 := vsub v (vscale (2 * dot v n) n).
