(** Plane curves, independent of the model. *)
From Coq Require Import Reals List Arith.
Open Scope R_scope.

Definition pt := (R * R)%type.
Definition on_ellipse (a b : R) (c p : pt) : Prop :=
  ((fst p - fst c) / a) * ((fst p - fst c) / a) + ((snd p - snd c) / b) * ((snd p - snd c) / b) = 1.
(** opening along y *)
Definition on_hyperbola (a b : R) (c p : pt) : Prop :=
  ((snd p - snd c) / b) * ((snd p - snd c) / b) - ((fst p - fst c) / a) * ((fst p - fst c) / a) = 1.
(** opening along x *)
Definition on_hyperbola_x (a b : R) (c p : pt) : Prop :=
  ((fst p - fst c) / a) * ((fst p - fst c) / a) - ((snd p - snd c) / b) * ((snd p - snd c) / b) = 1.
Definition on_line (p q z : pt) : Prop := (fst q - fst p) * (snd z - snd p) = (snd q - snd p) * (fst z - fst p).
(** one point in common *)
Definition touches (curve line : pt -> Prop) : Prop :=
  exists z, curve z /\ line z /\ forall w, curve w -> line w -> w = z.
Definition dist (p q : pt) : R := sqrt ((fst p - fst q) * (fst p - fst q) + (snd p - snd q) * (snd p - snd q)).

(** the [i]-th point of a curve given by its two arrays, if it is not NaN *)
Definition drawn (xy : list (option R) * list (option R)) (i : nat) : option pt :=
  match nth i (fst xy) None, nth i (snd xy) None with Some x, Some y => Some (x, y) | _, _ => None end.
(** two neighbouring points, both drawn, on different sides of a line [f p = 0] *)
Definition joined (f : pt -> R) (xy : list (option R) * list (option R)) : Prop :=
  exists k p q, drawn xy k = Some p /\ drawn xy (S k) = Some q /\ f p * f q < 0.
