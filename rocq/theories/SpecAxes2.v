(** Specification vocabulary for regression and Jolliffe error axes. *)
From Coq Require Import Reals Lra List String.
From Verif Require Import RVec.
Import ListNotations.
Open Scope R_scope.

(** Sum of squared vertical distances of points from z = a x + b y + c *)
Definition vertical_error (pts : list vec3) (a b c : R) : R :=
  sumf (fun p => (vz p - (a * vx p + b * vy p + c)) * (vz p - (a * vx p + b * vy p + c))) pts.
(** The regression plane of the points: no other plane is as near *)
Definition regression_plane (pts : list vec3) (a b c : R) : Prop :=
  forall a' b' c', (a', b', c') <> (a, b, c) -> vertical_error pts a b c < vertical_error pts a' b' c'.

(** All points on one line *)
Definition collinear (pts : list vec3) : Prop :=
  exists p0 d, forall p, In p pts -> exists k, p = vadd p0 (vscale k d).

(** Quantile function of a distribution symmetric about 0 *)
Definition symmetric_quantile (q : R -> option R) : Prop :=
  q (1 / 2) = Some 0 /\
  forall x y a b, 0 < x -> x < y -> y < 1 -> q x = Some a -> q y = Some b -> a < b.

(** The only keywords the error functions know *)
Definition known_keyword (k : string) : Prop :=
  In k ["confidence_level"; "dof"; "chisq"; "variance_on_all_axes"]%string.
