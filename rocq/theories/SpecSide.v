(** Specification vocabulary for the section view. *)
From Coq Require Import Reals List.
From Verif Require Import RVec Trig.
Import ListNotations.
Open Scope R_scope.

(** The view of a vertical section at the angle [a], counterclockwise from the x axis: the
    direction to the right of the screen and that towards the viewer *)
Definition right_of (a : R) : vec3 := V3 (cos a) (sin a) 0.
Definition towards (a : R) : vec3 := cross (right_of a) ez.
(** Where the orthographic projection puts a point, for scales with the values [x0], [y0] at
    0 and [kx], [ky] pixels for one unit *)
Definition ortho (a x0 kx y0 ky : R) (p : vec3) : R * R := (x0 + kx * dot p (right_of a), y0 + ky * dot p ez).
(** Compass direction (from y towards x), degrees *)
Definition heading (d : R) : vec3 := V3 (sin (radians d)) (cos (radians d)) 0.
(** On the screen, [p] is on the line through [a] and [b] *)
Definition on_line (a b p : R * R) : Prop := (fst b - fst a) * (snd p - snd a) - (snd b - snd a) * (fst p - fst a) = 0.
(** Half way between *)
Definition midpoint (a b m : R * R) : Prop := fst a + fst b = 2 * fst m /\ snd a + snd b = 2 * snd m.
