(** Model of attitude/coordinates, of the closed-form helpers in attitude/error and
    of geom/transform.py. *)
From Coq Require Import Reals Lra List Arith.
From Verif Require Import RVec Trig MPca MSphere LNum MConics MStereo.
Import ListNotations.
Open Scope R_scope.

(** * coordinates/rotations.py *)
(** rotations.py:11-28.  [N.exp] is the elementwise exponential, not the matrix
    exponential.  [None]: NaN entries, from a zero vector or from parallel vectors. *)
Definition transform (v1 v2 : vec3) : option mat3 :=
  match vangle v1 v2 with
  | None => None
  | Some theta =>
      let x := cross v1 v2 in
      if Req_EM_T (norm x) 0 then None else
      let x := vscale (/ norm x) x in
      let e a := exp (a * theta) in
      Some (M3 (V3 (e 0) (e (- vz x)) (e (vy x)))
               (V3 (e (vz x)) (e 0) (e (- vx x)))
               (V3 (e (- vy x)) (e (vx x)) (e 0)))
  end.
(** rotations.py:30-38 *)
Definition stereonet_transformation : mat3 := M3 (V3 0 0 1) (V3 0 1 0) (V3 1 0 0).
(** rotations.py:40-56 *)
Definition lonlat_cartesian (lon lat : R) : vec3 := V3 (cos lat * cos lon) (cos lat * sin lon) (sin lat).
(** rotations.py:58-60 *)
Definition from_stereonet (p : R * R) : option (R * R) :=
  let v := sph2cart p in cart2sph (V3 (vy v) (vz v) (- vx v)).
(** rotations.py:62-64 *)
Definition to_stereonet (p : R * R) : option (R * R) :=
  let v := sph2cart p in cart2sph (V3 (- vz v) (vx v) (vy v)).

(** * coordinates/__init__.py *)
(** __init__.py:4-10 for one column of the 3 x n input; [None]: the zero vector, NaN *)
Definition spherical1 (c : vec3) : option vec3 :=
  let r := norm c in
  match fdiv (vz c) r with
  | None => None
  | Some q => Some (V3 r (acos q) (atan2 (vy c) (vx c)))
  end.
(** the n rows (r, theta, phi) of the returned n x 3 array; a single vector gives one row *)
Definition spherical (c : list vec3) : list (option vec3) := map spherical1 c.
(** __init__.py:12-18 for one entry of each of the three rows *)
Definition cartesian1 (s : vec3) : vec3 :=
  let zc := vx s * sin (vy s) in V3 (zc * sin (vz s)) (zc * cos (vz s)) (vx s * cos (vy s)).
(** __init__.py:12-18 on an array given by its rows; rows have one length.  Unpacking
    anything but three rows raises. *)
Definition cartesian (rows : list (list R)) : res (list vec3) :=
  match rows with
  | [r; theta; phi] => Ok (map (fun '(a, (b, c)) => cartesian1 (V3 a b c)) (combine r (combine theta phi)))
  | _ => Raise ValueError
  end.
Definition row_of (s : vec3) : list R := [vx s; vy s; vz s].

(** * error/__init__.py *)
(** error/__init__.py:8-10 *)
Definition error_bounds (e : R * R) : R * R := let '(nominal, width) := e in (nominal - width, nominal + width).
(** error/__init__.py:38-44: 1/axes*axes[2]**2; [None]: a zero axis *)
Definition to_normal_errors (a : vec3) : option vec3 :=
  match fdiv 1 (vx a), fdiv 1 (vy a), fdiv 1 (vz a) with
  | Some p, Some q, Some r => Some (vscale (vz a * vz a) (V3 p q r))
  | _, _, _ => None
  end.
(** error/__init__.py:46-51: ax1[2]**2/ax1 *)
Definition from_normal_errors (a : vec3) : option vec3 :=
  match fdiv (vz a * vz a) (vx a), fdiv (vz a * vz a) (vy a), fdiv (vz a * vz a) (vz a) with
  | Some p, Some q, Some r => Some (V3 p q r)
  | _, _, _ => None
  end.

(** * error/ellipse.py *)
(** ellipse.py:4-17 and base.py:16-29, the same function twice; a 2 x 2 covariance.
    [level]: singular values are non-negative, so their root is defined. *)
Definition cov_ellipse (svd : svdn_fn) (center : R * R) (cov : matn) (level : R) (n : nat) : list (R * R) :=
  let '(_, s, V) := svd 2%nat cov in
  let a0 := sqrt (s 0%nat) * level in let a1 := sqrt (s 1%nat) * level in
  map (fun u => let x := a0 * cos u in let y := a1 * sin u in
     (x * V 0%nat 0%nat + y * V 1%nat 0%nat + fst center, x * V 0%nat 1%nat + y * V 1%nat 1%nat + snd center)) (linspace2pi n).

(** * geom/transform.py *)
(** transform.py:3-9 as rows *)
Definition rotate_2D (a : R) : (R * R) * (R * R) := ((cos a, - sin a), (sin a, cos a)).
