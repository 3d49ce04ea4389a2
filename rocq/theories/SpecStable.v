(** Specification vocabulary: small errors in the data, rounding. *)
From Coq Require Import Reals Lra List Permutation.
From Verif Require Import RVec SpecPlane.
Import ListNotations.
Open Scope R_scope.

(** Each point of the second list within the distance [e] of that of the first *)
Definition moved (e : R) (a b : list vec3) : Prop :=
  Forall2 (fun p q => norm (vsub q p) <= e) a b.
(** Root of the sum of squared distances at most [e] *)
Definition near (e : R) (a b : list vec3) : Prop :=
  0 <= e /\ length a = length b /\ sumf (fun '(p, q) => nrm2 (vsub q p)) (combine a b) <= e * e.

(** Arithmetic with relative error [u] *)
Definition rounds (u : R) (rnd : R -> R) : Prop := 0 <= u /\ forall x, Rabs (rnd x - x) <= u * Rabs x.

(** A routine whose results are the exact decomposition of an array that differs
    from its argument by at most the fraction [eta] (backward stability) *)
Definition size (a : list vec3) : R := sqrt (sumf nrm2 a).
Definition lapack_float (eta : R) (svd : list vec3 -> list vec3 * vec3 * mat3) : Prop :=
  forall a, (3 <= length a)%nat ->
    let '(u, s, v) := svd a in exists a', near (eta * size a) a a' /\ is_svd a' u s v.
