(** Model of attitude/__dustbin/__report/__init__.py:distance_from_group (the rest of the file
    fills a template; the file itself stops with a NameError on import, [path] being
    undefined). *)
From Coq Require Import Reals List.
From Verif Require Import RVec Trig MPca MAxes.
Import ListNotations.
Open Scope R_scope.

(** geom/util.py:42-46; [None]: division by zero *)
Definition unit_vector (v : vec3) : option vec3 :=
  if Req_EM_T (norm v) 0 then None else Some (vscale (/ norm v) v).
(** __report/__init__.py:20-23 and, for the group, 25-28: the in-plane direction across the
    line common to both planes, its component along the first axis, and the angular error for
    that length *)
Definition direction_error (st : stats) (inplane : vec3) (fit : pca) : option R :=
  obind (unit_vector (cross inplane (r2 (p_axes fit)))) (fun v =>
  angular_error st fit (dot v (r0 (p_axes fit)) * vx (p_s fit))).
(** __report/__init__.py:14-30, one component: the angle, the error in degrees, and their
    ratio in radians *)
Definition distance (st : stats) (group fit : pca) : option (R * R * R) :=
  let mean := acos (Rabs (dot (r2 (p_axes fit)) (r2 (p_axes group)))) in
  let inplane := cross (r2 (p_axes fit)) (r2 (p_axes group)) in
  obind (direction_error st inplane fit) (fun e1 =>
  obind (direction_error st inplane group) (fun e2 =>
  let std := e1 + e2 in
  obind (fdiv mean std) (fun ratio => Some (degrees mean, degrees std, ratio)))).
(** the generator *)
Definition distance_from_group (st : stats) (components : list pca) (group : pca) : list (option (R * R * R)) :=
  map (distance st group) components.

(** PCAOrientation of each array in turn; the first exception ends it *)
Fixpoint fits_of (svd : svd_fn) (arrays : list (list vec3)) : res (list pca) :=
  match arrays with
  | [] => Ok []
  | a :: t => rbind (PCAOrientation svd a None None) (fun f => rbind (fits_of svd t) (fun fs => Ok (f :: fs)))
  end.
(** __report/__init__.py:34-57: the distances of a report; without an array it stops at
    arrays[0], with one there are no components *)
Definition report_distances (svd : svd_fn) (st : stats) (arrays : list (list vec3)) : res (list (option (R * R * R))) :=
  rbind (match arrays with
         | [] => Raise IndexError
         | [a] => Ok (a, [])
         | _ => rbind (fits_of svd arrays) (fun fs => Ok (concat arrays, fs))
         end) (fun '(arr, components) =>
  rbind (PCAOrientation svd arr None None) (fun pca => Ok (distance_from_group st components pca))).
