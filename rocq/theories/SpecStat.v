(** Specification vocabulary: repeated measurement of one plane with random errors.
    A distribution has any number N of outcomes with their probabilities. *)
From Coq Require Import Reals Arith.
From Verif Require Import LNum.
Open Scope R_scope.

Definition distribution (N : nat) (p : vecn) : Prop := (forall w, (w < N)%nat -> 0 <= p w) /\ sumn N p = 1.
Definition expect (N : nat) (p : vecn) (X : nat -> R) : R := sumn N (fun w => p w * X w).
(** errors e w i of observation i < r in outcome w *)
Definition zero_mean (r N : nat) (p : vecn) (e : matn) : Prop :=
  forall i, (i < r)%nat -> expect N p (fun w => e w i) = 0.
Definition uncorrelated (r N : nat) (p : vecn) (e : matn) (s2 : R) : Prop :=
  forall i j, (i < r)%nat -> (j < r)%nat -> expect N p (fun w => e w i * e w j) = if (i =? j)%nat then s2 else 0.
(** points over (x i, y i) on the plane z = a x + b y + c, their heights measured with errors e *)
Definition measured (x y : vecn) (a b c : R) (e : vecn) : matn := fun i j =>
  match j with O => x i | 1%nat => y i | _ => a * x i + b * y i + c + e i end.
(** true slope *)
Definition slope (a b : R) (j : nat) : R := match j with O => a | _ => b end.
