(** Specification vocabulary: points measured with random errors in all coordinates. *)
From Coq Require Import Reals Arith List.
From Verif Require Import RVec LNum SpecPlane SpecStat.
Open Scope R_scope.

(** true points t i, their errors e w i in outcome w *)
Definition observed (r : nat) (t e : nat -> vec3) : list vec3 := map (fun i => vadd (t i) (e i)) (seq 0 r).
(** errors without bias, with the same variance in all directions, and uncorrelated between points *)
Definition isotropic (r N : nat) (p : vecn) (e : nat -> nat -> vec3) (s2 : R) : Prop :=
  forall d, zero_mean r N p (fun w i => dot d (e w i)) /\ uncorrelated r N p (fun w i => dot d (e w i)) (s2 * nrm2 d).
(** variance along d of the ellipsoid with the given axes and variances along them *)
Definition described (axes : mat3) (v : vec3) (d : vec3) : R :=
  vx v * Rsqr (dot (r0 axes) d) + vy v * Rsqr (dot (r1 axes) d) + vz v * Rsqr (dot (r2 axes) d).
