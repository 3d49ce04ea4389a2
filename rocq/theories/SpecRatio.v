(** Specification vocabulary: the angular error of a fit as a function of its
    aspect ratio (third singular value over an in-plane one) and of
    [k], twice the quantile over the root of n - 2. *)
From Coq Require Import Reals.
Open Scope R_scope.

Definition error_tangent (k rho : R) : R := rho * sqrt ((1 + k) / Rabs (1 - k * rho)).

