(** Specification vocabulary: random numbers multiplying coordinates. *)
From Coq Require Import Reals Arith List.
From Verif Require Import RVec LNum SpecStat.
Open Scope R_scope.

(** component c of a vector *)
Definition comp (c : nat) (v : vec3) : R := match c with O => vx v | 1%nat => vy v | _ => vz v end.
(** numbers e w c i (outcome, coordinate, point) of mean 0 and variance 1, uncorrelated *)
Definition white (r N : nat) (p : vecn) (e : nat -> nat -> nat -> R) : Prop :=
  (forall c i, (c < 3)%nat -> (i < r)%nat -> expect N p (fun w => e w c i) = 0) /\
  (forall c d i j, (c < 3)%nat -> (d < 3)%nat -> (i < r)%nat -> (j < r)%nat ->
     expect N p (fun w => e w c i * e w d j) = if ((c =? d) && (i =? j))%nat%bool then 1 else 0).
(** every coordinate changed by a multiple of itself *)
Definition stretched (s : R) (e : nat -> nat -> R) (t : nat -> vec3) (i : nat) : vec3 :=
  V3 (vx (t i) + s * e 0%nat i * vx (t i)) (vy (t i) + s * e 1%nat i * vy (t i)) (vz (t i) + s * e 2%nat i * vz (t i)).
(** mean square of the coordinates, weighted by those of a direction *)
Definition mean_square (r : nat) (t : nat -> vec3) (d : vec3) : R :=
  sumn r (fun i => Rsqr (vx d * vx (t i)) + Rsqr (vy d * vy (t i)) + Rsqr (vz d * vz (t i))) / INR r.
