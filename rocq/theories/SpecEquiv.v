(** Specification vocabulary: how results move with the data. *)
From Coq Require Import Reals Lra List.
From Verif Require Import RVec Trig SpecPlane SpecFront.
Open Scope R_scope.

(** The solid double cone bounded by [on_cone] *)
Definition within (axes : mat3) (h u : vec3) : Prop :=
  c0 axes u * c0 axes u / vx h + c1 axes u * c1 axes u / vy h <= c2 axes u * c2 axes u / vz h.
(** The same cone: the same directions on it and within it, [m] taking the first
    frame to the second *)
Definition same_cone (m axes1 axes2 : mat3) (h1 h2 : vec3) : Prop :=
  forall u, (on_cone axes2 h2 (mv m u) <-> on_cone axes1 h1 u) /\
            (within axes2 h2 (mv m u) <-> within axes1 h1 u).

(** Turning the outcrop about the vertical, counter-clockwise seen from above, by
    [t] degrees; reflecting it in the north-south vertical plane *)
Definition yaw (t : R) : mat3 :=
  M3 (V3 (cos (radians t)) (- sin (radians t)) 0) (V3 (sin (radians t)) (cos (radians t)) 0) (V3 0 0 1).
Definition mirror_x : mat3 := M3 (V3 (-1) 0 0) (V3 0 1 0) (V3 0 0 1).
