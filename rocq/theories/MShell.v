(** Model of the maps of ErrorShell and ReconstructedPlane, attitude/orientation/reconstructed.py:9-37. *)
From Coq Require Import Reals List String.
From Verif Require Import RVec Trig MPca MAxes MSphere MRecon MStereo MMap.
Import ListNotations.
Open Scope R_scope.

(** reconstructed.py:13-15; the axes are the caller's array *)
Record shell : Type := mkShell { sh_axes : mat3; sh_cov : mat3 }.
(** reconstructed.py:17-27; the keywords are not read, the hole is not reversed *)
Definition shell_girdle (s : shell) : polygon :=
  let sheet i := in_degrees (plane_errors (sh_axes s) (sh_cov s) i 1 false 1000) in
  mkPolygon (sheet "upper"%string) [sheet "lower"%string].
(** reconstructed.py:29-37, with the shell as it is left behind *)
Definition shell_normal (s : shell) : polygon * shell :=
  let '(pts, axes) := normal_errors (sh_axes s) (sh_cov s) 1 false 1000 in
  (mkPolygon (in_degrees pts) [], mkShell axes (sh_cov s)).
(** reconstructed.py:39, 89-90: a plane with two angular errors is such a shell *)
Definition shell_of (p : recon) : option shell := obind (recon_covariance p) (fun cov => Some (mkShell (rp_axes p) cov)).
(** Calls one after the other on one shell *)
Inductive shell_call := SGirdle | SCone.
Fixpoint shell_run (s : shell) (cs : list shell_call) : shell :=
  match cs with
  | [] => s
  | SGirdle :: cs => shell_run s cs
  | SCone :: cs => shell_run (snd (shell_normal s)) cs
  end.
