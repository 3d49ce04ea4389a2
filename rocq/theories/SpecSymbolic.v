(** Specification vocabulary: distance of a plane, ellipsoids. *)
From Coq Require Import Reals List.
From Verif Require Import RVec LNum SpecConics.
Open Scope R_scope.

(** Distance of the origin from the nearest point of a plane *)
Definition distance_from_origin (n : nat) (plane : vecn) (r : R) : Prop :=
  0 <= r /\
  (exists x, on_plane n plane x /\ sumn n (fun i => x i * x i) = r * r) /\
  (forall x, on_plane n plane x -> r * r <= sumn n (fun i => x i * x i)).

(** Matrix of sum ((x_i - v_i) / a_i)^2 = 1 *)
Definition ellipsoid (n : nat) (a v : vecn) : matn := fun i j =>
  if Nat.eqb i n then
    (if Nat.eqb j n then sumn n (fun k => (v k / a k) * (v k / a k)) - 1 else - v j / (a j * a j))
  else if Nat.eqb j n then - v i / (a i * a i)
  else if Nat.eqb i j then / (a i * a i) else 0.
