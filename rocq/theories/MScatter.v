(** Model of the random test data: attitude/test/__init__.py:14-42 and
    attitude/orientation/pca.py:22-28.

    numpy's random numbers are oracles; arrays of one dimension are lists. *)
From Coq Require Import Reals List Arith.
From Verif Require Import RVec MPca.
Import ListNotations.
Open Scope R_scope.

(** test/__init__.py:14-24 *)
Definition make_plane (x y : list R) (a b c : R) : res (list R) :=
  if Nat.eqb (length x) (length y) then Ok (map (fun '(x, y) => a * x + b * y + c) (combine x y))
  else Raise ValueError.
(** one coordinate of a plane, test/__init__.py:27 *)
Definition spoil (scatter : R) (randn : nat -> R) (i : list R) : list R :=
  map (fun '(k, v) => v * (1 + randn k * scatter)) (combine (seq 0 (length i)) i).
(** test/__init__.py:26-27; [randn c k] is number k of the call for coordinate c *)
Definition randomize (scatter : R) (randn : nat -> nat -> R) (plane : list R * list R * list R) : list R * list R * list R :=
  let '(x, y, z) := plane in (spoil scatter (randn 0%nat) x, spoil scatter (randn 1%nat) y, spoil scatter (randn 2%nat) z).
(** test/__init__.py:29-33; [uniform c k] is entry (c, k) of the drawn array, [coef] the
    drawn coefficients before scaling *)
Definition random_plane (uniform : nat -> nat -> R) (coef : vec3) (n : nat) (limit : R)
  : res (list R * list R * list R * vec3) :=
  let x := map (uniform 0%nat) (seq 0 n) in
  let y := map (uniform 1%nat) (seq 0 n) in
  let c := V3 (vx coef) (vy coef) (vz coef * (limit / 2)) in
  rbind (make_plane x y (vx c) (vy c) (vz c)) (fun z => Ok (x, y, z, c)).
(** test/__init__.py:35-38 *)
Definition scattered_plane uniform coef n limit scatter randn : res (list R * list R * list R * vec3) :=
  rbind (random_plane uniform coef n limit) (fun '(plane, c) => Ok (randomize scatter randn plane, c)).
(** N.array(arr).transpose() *)
Definition transposed (plane : list R * list R * list R) : list vec3 :=
  let '(x, y, z) := plane in map (fun '(x, (y, z)) => V3 x y z) (combine x (combine y z)).
(** pca.py:22-28 with the defaults of the two generators; the module imports
    [scattered_plane] only *)
Definition random_pca svd uniform coef randn (scattered : bool) : res pca :=
  if scattered then
    rbind (scattered_plane uniform coef 1000 100 (1 / 2) randn) (fun '(arr, _) => PCAOrientation svd (transposed arr) None None)
  else Raise NameError.
