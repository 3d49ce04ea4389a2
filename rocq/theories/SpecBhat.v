(** Specification vocabulary: the Bhattacharyya distance of two normal
    distributions whose covariance matrices are diagonal. *)
From Coq Require Import Reals.
From Verif Require Import RVec.
Open Scope R_scope.

Definition prod3 (v : vec3) : R := vx v * vy v * vz v.
Definition positive3 (v : vec3) : Prop := 0 < vx v /\ 0 < vy v /\ 0 < vz v.
Definition mid3 (a b : vec3) : vec3 := V3 ((vx a + vx b) / 2) ((vy a + vy b) / 2) ((vz a + vz b) / 2).
Definition mahalanobis (u c : vec3) : R := vx u * vx u / vx c + vy u * vy u / vy c + vz u * vz u / vz c.

Definition bhattacharyya (u1 c1 u2 c2 : vec3) : R :=
  mahalanobis (vsub u1 u2) (mid3 c1 c2) / 8
  + ln (prod3 (mid3 c1 c2) / sqrt (prod3 c1 * prod3 c2)) / 2.
