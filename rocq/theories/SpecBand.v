(** Specification vocabulary: a band drawn in a figure. *)
From Coq Require Import Reals List.
Import ListNotations.
Open Scope R_scope.

Definition cross2 (p q : R * R) : R := fst p * snd q - fst q * snd p.
(** twice the signed area swept from the origin along an open path *)
Fixpoint swept (l : list (R * R)) : R :=
  match l with a :: ((b :: _) as t) => cross2 a b + swept t | _ => 0 end.
(** signed area of a closed outline: positive when it runs counter-clockwise *)
Definition enclosed (l : list (R * R)) : R := match l with [] => 0 | a :: _ => swept (l ++ [a]) / 2 end.
(** trapezoid rule for a function over increasing positions *)
Fixpoint trapezoids (f : R -> R) (xs : list R) : R :=
  match xs with x :: ((y :: _) as t) => (y - x) * (f x + f y) / 2 + trapezoids f t | _ => 0 end.
Fixpoint increasing (xs : list R) : Prop :=
  match xs with x :: ((y :: _) as t) => x < y /\ increasing t | _ => True end.
(** last value announced in a sequence, if any *)
Definition latest {A B} (f : A -> option B) (init : option B) (l : list A) : option B :=
  fold_left (fun o a => match f a with Some b => Some b | None => o end) l init.
(** first of some options *)
Fixpoint first_of {A} (l : list (option A)) (d : A) : A :=
  match l with [] => d | Some a :: _ => a | None :: t => first_of t d end.
