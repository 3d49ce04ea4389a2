(** Model of the direction tests of the package. *)
From Coq Require Import Reals List.
From Verif Require Import RVec Trig MPca.
Import ListNotations.
Open Scope R_scope.

(** What is handed to [Orientation]: a list of tuples or an array *)
Inductive coords := PyList (pts : list vec3) | Array (pts : list vec3).
(** orientation/__init__.py:16 ([Orientation] is [PCAOrientation]), pca.py:152-155:
    the constructor calls [arr.mean], which lists do not have *)
Definition Orientation (svd : svd_fn) (c : coords) : res pca :=
  match c with PyList _ => Raise AttributeError | Array pts => PCAOrientation svd pts None None end.
(** orientation/tests.py:28-32: both numbers are compared for equality; a NaN is not
    equal to anything *)
Definition check_orientation (svd : svd_fn) (c : coords) (sol : R * R) : res unit :=
  rbind (Orientation svd c) (fun f =>
  match strike_dip f with
  | None => Raise AssertionError
  | Some (s, d) => if Req_EM_T s (fst sol) then if Req_EM_T d (snd sol) then Ok tt else Raise AssertionError else Raise AssertionError
  end).

(** orientation/tests.py:7-14 (names dropped) *)
Definition simple_cases : list (list vec3 * (R * R)) :=
  [([V3 1 0 1; V3 0 0 1; V3 0 1 0], (-90, 45));
   ([V3 5 0 (-5); V3 0 5 0; V3 0 0 0], (0, 45));
   ([V3 1 0 0; V3 1 1 1; V3 2 1 1], (90, 45));
   ([V3 0 2 0; V3 1 1 1; V3 0 0 0], (180, 45));
   ([V3 0 2 1; V3 1 1 0; V3 0 0 1], (0, 45));
   ([V3 0 0 1; V3 1 0 0; V3 0 1 0], (-45, degrees (atan (sqrt 2))))].
(** orientation/tests.py:23-26 *)
Definition flat_case : list vec3 * (R * R) := ([V3 0 0 0; V3 1 1 0; V3 0 2 0; V3 4 2 0], (0, 0)).
Definition vertical_case : list vec3 * (R * R) := ([V3 1 0 0; V3 1 1 (-1); V3 1 2 1], (0, 90)).
(** orientation/tests.py:34-40: the coordinates are passed on as they are listed *)
Definition test_directions (svd : svd_fn) : list (res unit) :=
  map (fun c => check_orientation svd (PyList (fst c)) (snd c)) simple_cases.
