(** Model of the helpers of attitude/stereonet.py that convert back from plotted points,
    build quaternions and rescale axes. *)
From Coq Require Import Reals List Arith.
From Verif Require Import RVec Trig MPca MAxes MSphere.
Import ListNotations.
Open Scope R_scope.

(** numpy.roll(a, -1) of a flattened array *)
Definition roll_back (l : list R) : list R := match l with [] => [] | a :: t => t ++ [a] end.

(** stereonet.py:26-31 for arrays of longitudes and latitudes (the names of the arguments are
    exchanged): the three rows of the result.  Without an axis [numpy.roll] acts on the rows
    put one after another.  Numbers are arrays with one entry. *)
Definition sph2cart_rows (pts : list (R * R)) : list R * list R * list R :=
  let n := length pts in
  let v := map sph2cart pts in
  let flat := roll_back (map vx v ++ map vy v ++ map vz v) in
  (map Ropp (firstn n flat), map Ropp (firstn n (skipn n flat)), skipn (2 * n) flat).

(** stereonet.py:8-12: the number is added to each component *)
Definition quaternion (v : vec3) (angle : R) : vec3 :=
  vadd (V3 (cos (angle / 2)) (cos (angle / 2)) (cos (angle / 2))) (vscale (sin (angle / 2)) v).

(** stereonet.py:33-40 for three axes *)
Definition scale_errors (st : stats) (cov_axes : vec3) (confidence_level : R) : option vec3 :=
  obind (chi2_ppf st confidence_level 3) (fun x2t => vsqrt (vscale x2t cov_axes)).
