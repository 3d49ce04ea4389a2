(** Specification vocabulary for the browser's stereonet. *)
From Coq Require Import Reals List.
From Verif Require Import RVec Trig.
Import ListNotations.
Open Scope R_scope.

(** Direction in space (x east, y north, z up) of a point of the net, given in degrees:
    longitude 0 is south, 90 east and 180 north. *)
Definition enu (q : R * R) : vec3 :=
  let lon := radians (fst q) in let lat := radians (snd q) in
  V3 (cos lat * sin lon) (- (cos lat * cos lon)) (sin lat).
(** The direction that leans by [d] from the vertical towards the azimuth [a] (degrees) *)
Definition leaning (a d : R) : vec3 :=
  V3 (sin (radians d) * sin (radians a)) (sin (radians d) * cos (radians a)) (cos (radians d)).

(** A view of the sphere from outside: the direction at the centre of the picture, the one
    to the right and the one upwards on the screen. *)
Record view := mkView { v_centre : vec3; v_right : vec3; v_up : vec3 }.
(** A right-handed orthonormal frame *)
Definition proper (w : view) : Prop :=
  dot (v_centre w) (v_centre w) = 1 /\ dot (v_right w) (v_right w) = 1 /\ dot (v_up w) (v_up w) = 1 /\
  dot (v_right w) (v_up w) = 0 /\ cross (v_right w) (v_up w) = v_centre w.
(** The view of a net turned by three angles (degrees): the point drawn at the centre has
    longitude [- l] and latitude [- p], and the picture is turned by [g] about it. *)
Definition turned (r : R * R * R) : view :=
  let '(l, p, g) := r in
  let e := enu (90 - l, 0) in let n := enu (- l, 90 - p) in
  let cg := cos (radians g) in let sg := sin (radians g) in
  mkView (enu (- l, - p)) (vsub (vscale cg e) (vscale sg n)) (vadd (vscale sg e) (vscale cg n)).
Definition dist2 (a b : R * R) : R := (fst a - fst b) * (fst a - fst b) + (snd a - snd b) * (snd a - snd b).
(** [s] is the place on the screen (y downwards) of the direction [u] in Lambert's equal-area
    projection at scale [k] centred at [t]: in the direction in which [u] lies from the
    centre, at a distance proportional to the chord. *)
Definition lambert (w : view) (t : R * R) (k : R) (u : vec3) (s : R * R) : Prop :=
  dist2 s t = k * k * nrm2 (vsub u (v_centre w)) /\
  exists m, 0 <= m /\ fst s - fst t = m * dot u (v_right w) /\ snd t - snd s = m * dot u (v_up w).

(** The last value given by a list of calls, if any *)
Fixpoint last_of {A B} (f : A -> option B) (l : list A) (b : B) : B :=
  match l with [] => b | x :: t => last_of f t (match f x with Some y => y | None => b end) end.
