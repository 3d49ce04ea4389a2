(** Specification vocabulary: what is seen of a curve from the origin. *)
From Coq Require Import Reals.
From Verif Require Import RVec LNum SpecConics.
Open Scope R_scope.

(** the curve lies between the lines x = t y and x = - t y and reaches both *)
Definition half_shadow (C : matn) (t : R) : Prop :=
  (forall p, value 2 C p = 0 -> Rabs (p 0%nat) <= t * p 1%nat) /\
  (exists p, value 2 C p = 0 /\ 0 < p 1%nat /\ p 0%nat = t * p 1%nat) /\
  (exists p, value 2 C p = 0 /\ 0 < p 1%nat /\ p 0%nat = - (t * p 1%nat)).
