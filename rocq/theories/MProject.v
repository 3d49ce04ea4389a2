(** Model of geom/test_hyperbolic_errors.py and display/test_hyperbolic_errors.py. *)
From Coq Require Import Reals List Bool.
From Verif Require Import RVec Trig LNum MConics MAxes MHyper MFigures.
Import ListNotations.
Open Scope R_scope.

(** the dual of the ellipsoid, the two axes read off its slice, and the three curves
    that are compared *)
Record projected := { pr_dual : matn; pr_axes : R * R; pr_y0 : list R; pr_y1 : list R; pr_y2 : list R }.
(** geom/test_hyperbolic_errors.py:118-146 for any hyperbolic axes and positions;
    [NonFinite]: a zero on the diagonal of the slice, or NaN in the formula *)
Definition project (inv : inv_fn) (h : vec3) (xs : list R) : res projected :=
  rbind (dual inv 3 (from_axes 3 (vec_of3 h))) (fun cd =>
  rbind (slice 3 cd (fun i => match i with O => 1 | _ => 0 end) None) (fun '(h1, _, _) =>
  match fdiv 1 (Rabs (h1 0%nat 0%nat)), fdiv 1 (Rabs (h1 1%nat 1%nat)), simple_hyperbola (vy h, vz h) xs 1 1 with
  | Some a0, Some a1, Some (_, y1) =>
      rbind (hyperbolic_errors inv [vx h; vy h; vz h] xs None (Some [[0; 1; 0]; [0; 0; 1]]) None false) (fun '(_, _, t) =>
      Ok {| pr_dual := cd; pr_axes := (sqrt a0, sqrt a1);
            pr_y0 := map (fun x => sqrt a1 * cosh (arcsinh (x / sqrt a0))) xs; pr_y1 := y1; pr_y2 := map snd t |})
  | _, _, _ => NonFinite
  end)).
(** geom/test_hyperbolic_errors.py:157-163: the formula for the first and third axis, and
    the upper edge it is compared with *)
Definition minimum (inv : inv_fn) (h : vec3) (xs : list R) : res (list R * list R) :=
  match simple_hyperbola (vx h, vz h) xs 1 1 with
  | Some (_, y1) => rbind (hyperbolic_errors inv [vx h; vy h; vz h] xs None (Some [[1; 0; 0]; [0; 0; 1]]) None false) (fun '(_, _, t) =>
                    Ok (y1, map snd t))
  | None => NonFinite
  end.
(** display/test_hyperbolic_errors.py:90-118 for any axes and angle: the two computations
    of the axes seen in direction [t] *)
Definition dual_conic (inv : inv_fn) (h : vec3) (t : R) : res ((R * R) * (R * R)) :=
  rbind (view_axes inv [vx h; vy h; vz h] None (Some [[cos t; sin t; 0]; [0; 0; 1]])) (fun H =>
  match obind (fdiv 1 (vx h)) fsqrt, obind (fdiv 1 (vy h)) fsqrt, obind (fdiv 1 (vz h)) fsqrt with
  | Some h0, Some h1, Some h2 =>
      match fdiv 1 (sqrt (h0 * cos t * (h0 * cos t) + h1 * sin t * (h1 * sin t))), fdiv 1 (Rabs h2) with
      | Some a, Some b => Ok (H, (a, b))
      | _, _ => NonFinite
      end
  | _, _, _ => NonFinite
  end).
