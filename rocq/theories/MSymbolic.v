(** Model of attitude/geom/symbolic_math.py for matrices of numbers. *)
From Coq Require Import Reals List.
From Verif Require Import RVec LNum MConics.
Open Scope R_scope.

(** [inv]: sympy's Matrix.inv; a singular matrix raises NonInvertibleMatrixError, a
    ValueError.  symbolic_math.py:8-11 for an (n+1) x (n+1) matrix *)
Definition sym_center (inv : inv_fn) (n : nat) (conic : matn) : res vecn :=
  match inv n (fun i j => conic i j) with
  | None => Raise ValueError
  | Some ec => let eo := fun i => - conic i n in Ok (mulv n ec eo)
  end.
(** symbolic_math.py:13-14 *)
Definition sym_dual (inv : inv_fn) (n : nat) (conic : matn) : res matn :=
  match inv (S n) conic with None => Raise ValueError | Some D => Ok D end.
(** symbolic_math.py:16-20 *)
Definition sym_polar_plane (n : nat) (ell : matn) (point : option vecn) : vecn :=
  let point := match point with None => fun _ => 0 | Some p => p end in
  let pt := fun i => if (Nat.ltb i n) then point i else 1 in
  mulv (S n) ell pt.
(** symbolic_math.py:22-23; a zero normal gives zoo or nan *)
Definition sym_origin_distance (n : nat) (plane : vecn) : option R :=
  fdiv (plane n) (sqrt (sumn n (fun i => plane i * plane i))).
