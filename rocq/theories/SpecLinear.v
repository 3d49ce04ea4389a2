(** Specification vocabulary for regression fits. *)
From Coq Require Import Reals List.
From Verif Require Import RVec LNum.
Open Scope R_scope.

(** sum of squared vertical distances of the points (rows of an r x 3 array) to the
    plane z = a x + b y + c *)
Definition vsse (r : nat) (A : matn) (a b c : R) : R :=
  sumn r (fun i => let e := A i 2%nat - (a * A i 0%nat + b * A i 1%nat + c) in e * e).
(** the points have a common vertical plane *)
Definition collinear_xy (r : nat) (A : matn) : Prop :=
  exists u v w, (u <> 0 \/ v <> 0) /\ forall i, (i < r)%nat -> u * A i 0%nat + v * A i 1%nat = w.
Definition col_mean (r : nat) (A : matn) (j : nat) : R := sumn r (fun i => A i j) / INR r.
(** deviations from the mean: x, y and the constant 1 of observation i *)
Definition regressor (r : nat) (A : matn) (i j : nat) : R :=
  match j with O => A i 0%nat - col_mean r A 0 | 1%nat => A i 1%nat - col_mean r A 1 | _ => 1 end.
(** normal matrix of the regression *)
Definition normal_matrix (r : nat) (A : matn) : matn := fun i j => sumn r (fun k => regressor r A k i * regressor r A k j).
