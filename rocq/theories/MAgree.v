(** What passes from the Python package to the browser: the JSON mapping of a plane read
    by the front end, and the inputs of the cross-language test. *)
From Coq Require Import Reals List String.
From Verif Require Import RVec MPca MAxes MMapping MFront.
Import ListNotations.
Open Scope R_scope.

(** JSON.parse of a list of three numbers, of three rows, of a number; null, NaN and
    anything else is nothing the front end can use *)
Definition read_vec (l : list R) : option vec3 := match l with [a; b; c] => Some (V3 a b c) | _ => None end.
Definition read_mat (l : list (list R)) : option mat3 :=
  match l with
  | [a; b; c] => obind (read_vec a) (fun x => obind (read_vec b) (fun y => obind (read_vec c) (fun z => Some (M3 x y z))))
  | _ => None
  end.
Definition field_vec (k : string) (m : dict) : option vec3 :=
  match lookup k m with Some (VFloats (Some l)) => read_vec l | _ => None end.
Definition field_mat (k : string) (m : dict) : option mat3 :=
  match lookup k m with Some (VRows l) => read_mat l | _ => None end.
Definition field_num (k : string) (m : dict) : option R :=
  match lookup k m with Some (VFloat x) => x | _ => None end.
(** The properties that functions.ts:68-81 takes from the object *)
Definition browser_props (m : dict) : props :=
  mkProps (field_vec "hyperbolic_axes" m) (field_mat "axes" m) (field_vec "covariance" m) (field_num "strike" m).
(** functions.ts:88-91: the three curves drawn for a plane.  Without lengths the first
    use of them throws. *)
Definition grouped_plane (recon : props -> res (vec3 * mat3)) (o : opts) (m : dict) : res bands :=
  rbind (construct_axes recon (browser_props m)) (fun '((hyp, axes), _) =>
  match hyp with None => Raise TypeError | Some h => Ok (combined_errors h axes o) end).

(** frontend/packages/attitude/test/test-runner.py:33-41: what the test hands to the browser's functions
    is the diagonal of the matrix that it hands to the Python ones. *)
Definition test_lengths (cov : mat3) : vec3 := diagonal cov.
(** test-runner.py:108-110: the argument of deconvolveAxes *)
Definition test_principal (f : pca) : mat3 := principal_axes f.
