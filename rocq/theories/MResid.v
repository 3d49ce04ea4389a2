(** Model of attitude/display/plot/misc.py:6-37 (aligned_residuals). *)
From Coq Require Import Reals List.
From Verif Require Import RVec MPca.
Import ListNotations.
Open Scope R_scope.

(** misc.py:25-28: columns 0 and 2, then 1 and 2, of the points in their own axes *)
Definition sections (f : pca) : list (list (R * R)) :=
  [map (fun p => (vx p, vz p)) (rotated f); map (fun p => (vy p, vz p)) (rotated f)].
(** misc.py:6-37: what is drawn in each panel, the points and the line seaborn's regplot puts
    through them, slope first.  [regplot] stands for its pseudoinverse.  The lengths of lines
    20-21 are never used; titles and spines (looped over with a method python 3 lacks) are left
    out, and so is the shaded band from resampling. *)
Definition aligned_residuals (regplot : list (R * R) -> R * R) (f : pca) : list (list (R * R) * (R * R)) :=
  map (fun s => (s, regplot s)) (sections f).
