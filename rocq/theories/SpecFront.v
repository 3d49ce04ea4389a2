(** Specification vocabulary for the browser front end. *)
From Coq Require Import Reals Lra List.
From Verif Require Import RVec Trig SpecStereo.
Import ListNotations.
Open Scope R_scope.

(** Direction in space of a plotted longitude and latitude; on a lower-hemisphere
    plot latitudes have the opposite sign. *)
Definition drawn (degrees traditional upper : bool) (p : R * R) : vec3 :=
  let rad := fun x => if degrees then radians x else x in
  plane_dir traditional (rad (fst p), if upper then rad (snd p) else - rad (snd p)).

(** Coordinates along the rows of [axes] *)
Definition c0 (axes : mat3) (u : vec3) : R := dot u (r0 axes).
Definition c1 (axes : mat3) (u : vec3) : R := dot u (r1 axes).
Definition c2 (axes : mat3) (u : vec3) : R := dot u (r2 axes).

(** The elliptical double cone about the third axis with squared semiaxes [h] *)
Definition on_cone (axes : mat3) (h u : vec3) : Prop :=
  c0 axes u * c0 axes u / vx h + c1 axes u * c1 axes u / vy h = c2 axes u * c2 axes u / vz h.
(** Inside that cone, on the side of the third axis *)
Definition in_cone (axes : mat3) (h u : vec3) : Prop :=
  c0 axes u * c0 axes u / vx h + c1 axes u * c1 axes u / vy h <= c2 axes u * c2 axes u / vz h /\ 0 < c2 axes u.

(** Slope downwards, per unit of horizontal distance, of the plane with normal [n]
    in the compass direction [az] (from y towards x): the height at which the
    plane through the origin passes under the point one unit away. *)
Definition descends (n : vec3) (az d : R) : Prop := dot n (V3 (sin az) (cos az) (- d)) = 0.

(** Two screen directions are parallel *)
Definition parallel (a b : R * R) : Prop := fst a * snd b - snd a * fst b = 0.

(** Half the angle between the two lines in which the vertical plane through the
    direction [w] cuts the error cone of a horizontal plane: a point of the cone
    above [w] is at this elevation. *)
Definition half_opening (axes : mat3) (h : vec3) (w : vec3) (e : R) : Prop :=
  0 < e < PI / 2 /\ on_cone axes h (vadd (vscale (cos e) w) (vscale (sin e) ez)).

(** Arithmetic mean of a set of points *)
Definition centroid (l : list vec3) : vec3 := vscale (/ INR (List.length l)) (vsum l).
(** [m] is half way between the least and the greatest of [f] over the list *)
Definition midrange {A} (f : A -> R) (l : list A) (m : R) : Prop :=
  exists a b, In a l /\ In b l /\ (forall x, In x l -> f a <= f x <= f b) /\ m = (f a + f b) / 2.
