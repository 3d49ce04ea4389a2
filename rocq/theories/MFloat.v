(** Model of fitting in floating point (attitude/coordinates/__init__.py:19-28 and
    attitude/orientation/pca.py:174-196): every operation rounds; overflow and
    underflow are left out. *)
From Coq Require Import Reals Lra List Permutation.
From Verif Require Import RVec MPca.
Import ListNotations.
Open Scope R_scope.

(** numpy's sum of some numbers: rounded additions in any order and grouping (row by
    row or pairwise, depending on the layout of the array) *)
Inductive fl_sum (rnd : R -> R) : list R -> R -> Prop :=
  | fl_one : forall x, fl_sum rnd [x] x
  | fl_add : forall xs ys a b, fl_sum rnd xs a -> fl_sum rnd ys b -> fl_sum rnd (xs ++ ys) (rnd (a + b))
  | fl_perm : forall xs ys a, Permutation xs ys -> fl_sum rnd xs a -> fl_sum rnd ys a.
(** a.mean(axis=0): the sums divided by the number of rows *)
Definition fl_mean (rnd : R -> R) (arr : list vec3) (m : vec3) : Prop :=
  exists x y z, fl_sum rnd (map vx arr) x /\ fl_sum rnd (map vy arr) y /\ fl_sum rnd (map vz arr) z /\
    let n := INR (length arr) in m = V3 (rnd (x / n)) (rnd (y / n)) (rnd (z / n)).
(** coordinates/__init__.py:19-28 *)
Definition fl_centered (rnd : R -> R) (arr c : list vec3) : Prop :=
  exists m, fl_mean rnd arr m /\
    c = map (fun p => V3 (rnd (vx p - vx m)) (rnd (vy p - vy m)) (rnd (vz p - vz m))) arr.
(** pca.py:174-196 without weights: singular values and axes *)
Definition fl_fit (rnd : R -> R) (svd : svd_fn) (arr : list vec3) (s : vec3) (v : mat3) : Prop :=
  (3 <= length arr)%nat /\ exists c u, fl_centered rnd arr c /\ svd c = (u, s, v).
