(** Specification vocabulary for plane fitting.  Independent of the model:
    textbook notions only. *)
From Coq Require Import Reals Lra List.
From Verif Require Import RVec Trig.
Import ListNotations.
Open Scope R_scope.

(** What LAPACK promises for [numpy.linalg.svd(a, full_matrices=False)] of an
    n x 3 array with n >= 3: [a = u diag(s) v], orthonormal columns of [u],
    orthogonal [v], non-negative sorted singular values. *)
Record is_svd (a u : list vec3) (s : vec3) (v : mat3) : Prop := {
  svd_fact : a = map (fun ui => vm (vmul ui s) v) u;
  svd_u00 : sumf (fun p => vx p * vx p) u = 1;
  svd_u11 : sumf (fun p => vy p * vy p) u = 1;
  svd_u22 : sumf (fun p => vz p * vz p) u = 1;
  svd_u01 : sumf (fun p => vx p * vy p) u = 0;
  svd_u02 : sumf (fun p => vx p * vz p) u = 0;
  svd_u12 : sumf (fun p => vy p * vz p) u = 0;
  svd_v : orthonormal v;
  svd_s01 : vy s <= vx s;
  svd_s12 : vz s <= vy s;
  svd_s2 : 0 <= vz s }.

(** The SVD routine [svd] meets the contract on the array [a]. *)
Definition svd_ok_on (svd : list vec3 -> list vec3 * vec3 * mat3) (a : list vec3) : Prop :=
  let '(u, s, v) := svd a in is_svd a u s v.

(** The plane { p | n . p = d }, [n] a unit vector, and the sum of squared
    perpendicular distances of points to it. *)
Definition sq_dist (n : vec3) (d : R) (p : vec3) : R := (dot n p - d) * (dot n p - d).
Definition sum_sq_dist (n : vec3) (d : R) (pts : list vec3) : R := sumf (sq_dist n d) pts.

(** [m] is the arithmetic mean of the points. *)
Definition is_mean (m : vec3) (pts : list vec3) : Prop :=
  pts <> [] /\ vscale (INR (length pts)) m = vsum pts.

(** Sample variance (n-1 denominator) of a list of reals / of the coordinates
    of points along a direction. *)
Definition sample_mean (xs : list R) : R := sumf (fun x => x) xs / INR (length xs).
Definition sample_var (xs : list R) : R :=
  sumf (fun x => (x - sample_mean xs) * (x - sample_mean xs)) xs / (INR (length xs) - 1).
Definition var_along (d : vec3) (pts : list vec3) : R := sample_var (map (dot d) pts).

(** Same line: equal or opposite vectors. *)
Definition same_line (a b : vec3) : Prop := a = b \/ a = vneg b.

(** Geologist's right-hand rule, x east, y north, z up, degrees: dip direction
    is strike + 90 clockwise from north.  Unit horizontal vector with azimuth
    [az], down-dip vector and upward unit normal of a plane. *)
Definition azimuth_vec (az : R) : vec3 := V3 (sin (radians az)) (cos (radians az)) 0.
Definition down_dip (s d : R) : vec3 :=
  vadd (vscale (cos (radians d)) (azimuth_vec (s + 90)))
       (vscale (- sin (radians d)) ez).
(** upward normal: tilted from vertical by [d] towards the dip direction *)
Definition plane_normal (s d : R) : vec3 :=
  vadd (vscale (sin (radians d)) (azimuth_vec (s + 90)))
       (vscale (cos (radians d)) ez).

(** congruent angles in degrees *)
Definition cong360 (a b : R) : Prop := exists k : Z, a = b + 360 * IZR k.

(** [svd] meets LAPACK's contract on every array with at least three rows
    ([LSvd.svd_ref_ok] shows such a function exists). *)
Definition lapack (svd : list vec3 -> list vec3 * vec3 * mat3) : Prop :=
  forall a, (3 <= length a)%nat -> svd_ok_on svd a.
