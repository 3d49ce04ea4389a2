(** Model of the two-dimensional cases of attitude/geom/conics.py:angle_subtended and of
    attitude/geom/test_offset_ellipse.py. *)
From Coq Require Import Reals List.
From Verif Require Import RVec Trig LNum MConics.
Import ListNotations.
Open Scope R_scope.

(** conics.py:8-26 for a conic of the plane: the cut is one-dimensional, [major_axes] is
    a 1 x 1 array and the norm of its row its size *)
Definition angle_subtended2 (svd : svdn_fn) (C : matn) : res R :=
  rbind (projection 2 C None None) (fun '(con, _, offset) =>
  rbind (major_axes svd 1 con) (fun ax => Ok (atan2 (normn 1 (ax 0%nat)) (normn 2 offset)))).

Definition pt2 (x y : R) : vecn := fun i => match i with O => x | _ => y end.
(** test_offset_ellipse.py:56-72: the ellipse with half axes a, b about (0, l) *)
Definition offset_ellipse (a b l : R) : matn :=
  translate 2 (from_axes 2 (pt2 (1 / (a * a)) (1 / (b * b)))) (pt2 0 l).
(** test_offset_ellipse.py:67: [1/b*(a**4+b**4)] *)
Definition tested_shift (a b : R) : R := 1 / b * (a ^ 4 + b ^ 4).
(** test_offset_ellipse.py:61: [N.arctan2(b,a)] *)
Definition hyperbola_angle (a b : R) : R := atan2 b a.
(** test_offset_ellipse.py:77-81: last entry of the Hessian normal form of the polar *)
Definition polar_offset (C : matn) : option R :=
  option_map (fun h => h 2%nat) (hessian_normal 2 (polar_plane 2 C (pt2 0 0))).
(** test_offset_ellipse.py:96-98 *)
Definition angular_shadow (a b l : R) : option R :=
  option_map (fun offs => atan2 (a * sqrt (1 - b ^ 2 / l ^ 2)) offs) (polar_offset (offset_ellipse a b l)).
(** test_offset_ellipse.py:35-41: [l = float(con.major_axes())], then the angle in radians *)
Definition shadow_by_hand (svd : svdn_fn) (C : matn) : res R :=
  rbind (slice 2 C (polar_plane 2 C (pt2 0 0)) None) (fun '(con, _, offset) =>
  rbind (major_axes svd 1 con) (fun ax => Ok (atan2 (ax 0%nat 0%nat) (normn 2 offset)))).
